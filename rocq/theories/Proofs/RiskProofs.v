(* Exactly which column metadata can make the decoder panic. *)
From Verif Require Import Base.Tac Base.Bytes Base.Text Base.Res Base.Str Base.Parse Base.Loop Model.Codec Model.Values Model.Decimal Model.Cells
  Model.TableMap Model.Rows Model.Gtid Model.GtidMaria Model.Events Spec.CodecSpec Spec.EventSpec Spec.CellSpec Spec.TableSpec Spec.RowSpec Spec.SafeSpec
  Proofs.CodecProofs Proofs.EventSafe Proofs.RowProofs Proofs.DecodeSafe.
Local Open Scope N_scope.

(* ---- the hidden type ---- *)
Lemma lor_low lo j : lo < 256 -> N.lor lo (256 * j) = lo + 256 * j.
Proof.
  intros H. rewrite N.add_comm, N.lor_comm. symmetry. rewrite <- N.lxor_lor, N.add_nocarry_lxor; try reflexivity.
  all: apply N.bits_inj_0; intros n; rewrite N.land_spec; destruct (N.lt_ge_cases n 8) as [C|C];
    [replace 256 with (2 ^ 8) by reflexivity; rewrite N.mul_comm, N.mul_pow2_bits_low by exact C; reflexivity
    |rewrite (N.bits_above_log2 lo n), andb_false_r; [reflexivity|]].
  all: destruct (N.eq_dec lo 0) as [->|NZ]; [change (N.log2 0) with 0; lia|]; apply N.log2_lt_pow2; [lia|]; apply N.lt_le_trans with (2 ^ 8); [exact H|]; apply N.pow_le_mono_r; lia.
Qed.
Lemma hi_cases hi : hi < 256 ->
  (N.land hi 0x30 =? 0x30) = (hi / 16 mod 4 =? 3) /\
  N.lor hi 0x30 = hi + 16 * (3 - hi / 16 mod 4) /\
  N.shiftl (N.lxor (N.land hi 0x30) 0x30) 4 = 256 * (3 - hi / 16 mod 4).
Proof.
  intros H.
  assert (F : forallb (fun n => Bool.eqb (N.land n 0x30 =? 0x30) (n / 16 mod 4 =? 3) && (N.lor n 0x30 =? n + 16 * (3 - n / 16 mod 4))
    && (N.shiftl (N.lxor (N.land n 0x30) 0x30) 4 =? 256 * (3 - n / 16 mod 4))) (map N.of_nat (seq 0 256)) = true) by (vm_compute; reflexivity).
  rewrite forallb_forall in F. specialize (F hi). rewrite !andb_true_iff, eqb_true_iff, !N.eqb_eq in F.
  destruct F as [[F1 F2] F3]; [apply in_map_iff; exists (N.to_nat hi); split; [lia|apply in_seq; lia]|]. auto.
Qed.
Lemma real_string m : m < 65536 -> actual_string_type 254 m = real_column 254 m.
Proof.
  intros H. unfold actual_string_type, real_column. rewrite N.eqb_refl. cbn [andb].
  destruct (N.ltb_spec m 256), (N.leb_spec 256 m); try lia; [reflexivity|].
  assert (Hh : m / 256 < 256) by lia. rewrite (N.mod_small (m / 256) 256) by exact Hh.
  destruct (hi_cases _ Hh) as (E1 & E2 & E3). cbv zeta. rewrite E1, E2, E3.
  replace (N.land m 255) with (m mod 256) by (change 255 with (N.ones 8); rewrite N.land_ones; reflexivity).
  destruct (N.eqb_spec (m / 256 / 16 mod 4) 3); cbn [negb]; [reflexivity|]. f_equal. apply lor_low. lia.
Qed.
Lemma real_meta ty m : m < 65536 -> snd (real_column ty m) < 65536.
Proof.
  intros H. unfold real_column. destruct (_ && _); [|exact H]. cbv zeta. destruct (N.eqb_spec (m / 256 / 16 mod 4) 3); cbn [snd]; lia.
Qed.

(* ---- a cell that is not risky ---- *)
Definition ct_risky (bl : build) (ct : coltype) (m : N) : Prop :=
  match ct with
  | CtTinyBlob | CtMediumBlob | CtLongBlob | CtBlob | CtGeometry | CtJson => m = 0 \/ 8 <= m
  | CtEnum | CtSet => m = 0 \/ 9 <= m
  | CtTimeStamp2 | CtDateTime2 | CtTime2 => (bl = Debug /\ 7 <= m) \/ (bl = Release /\ 17 <= m < 65535)
  | CtNewDecimal => m = 0 \/ (bl = Debug /\ m mod 256 < m / 256)
  | _ => False
  end.
Lemma risky_ct bl ty m ct : coltype_from_code ty = Ok ct -> cell_risky bl ty m = ct_risky bl ct m.
Proof.
  intros E. apply coltype_known in E. unfold coltype_table in E. cbn [In] in E.
  repeat (destruct E as [E|E]; [inv E; reflexivity|]). contradiction.
Qed.
Lemma risky_unknown bl ty m e : coltype_from_code ty = Err e -> ~ cell_risky bl ty m.
Proof.
  intros E R. assert (X : has ty [245; 249; 250; 251; 252; 255; 247; 248; 17; 18; 19; 246] = true).
  { revert R. unfold cell_risky, has. cbn [existsb].
    destruct (ty =? 245), (ty =? 249), (ty =? 250), (ty =? 251), (ty =? 252), (ty =? 255), (ty =? 247), (ty =? 248), (ty =? 17), (ty =? 18), (ty =? 19), (ty =? 246);
      cbn [orb]; try reflexivity; contradiction. }
  unfold has in X. apply existsb_exists in X. destruct X as (y & Y & Z). apply N.eqb_eq in Z. subst y. cbn [In] in Y.
  repeat (destruct Y as [Y|Y]; [subst ty; discriminate E|]). contradiction.
Qed.

Lemma fractional_psafe bl m : m < 65536 -> ~ ((bl = Debug /\ 7 <= m) \/ (bl = Release /\ 17 <= m < 65535)) ->
  psafe (parse_fractional bl m) /\ pvals (fun f => f < u64max1) (parse_fractional bl m).
Proof.
  intros Hm Hn. destruct (N.le_gt_cases m 6) as [C|C]; [split; [now apply psafe_fractional|now apply pvals_fractional]|].
  destruct bl; [exfalso; apply Hn; left; split; [reflexivity|lia]|].
  assert (D : m < 17 \/ m = 65535) by (destruct (N.lt_ge_cases m 17); [now left|right]; destruct (N.eq_dec m 65535); [assumption|]; exfalso; apply Hn; right; split; [reflexivity|lia]).
  unfold parse_fractional. destruct D as [D| ->].
  - rewrite uadd_ok by lia. split.
    + intros buf pos. unfold pbind at 1, lift at 1. cbv zeta. destruct (N.eqb_spec ((m + 1) / 2) 0); [lia|]. unfold pbind.
      pose proof (psafe_uint_be ((m + 1) / 2) ltac:(lia) buf pos) as X. destruct (read_uint_be ((m + 1) / 2) buf pos) as [[f q]|e| |]; try exact X.
      destruct (N.leb_spec ((m + 1) / 2) 3); [lia|]. exact I.
    + intros buf pos a pos'. unfold pbind at 1, lift at 1. cbv zeta. destruct (N.eqb_spec ((m + 1) / 2) 0); [lia|]. unfold pbind.
      destruct (read_uint_be ((m + 1) / 2) buf pos) as [[f q]|e| |]; try discriminate.
      destruct (N.leb_spec ((m + 1) / 2) 3); [lia|]. unfold ret. intros HH. inv HH. unfold u64max1. lia.
  - split; [intros buf pos; exact I|]. intros buf pos a pos' H. unfold pbind, lift, uadd in H.
    change (65535 + 1 <? 65536) with false in H. cbv iota beta zeta in H. change ((65535 + 1) mod 65536 / 2 =? 0) with true in H.
    cbv iota in H. unfold ret in H. inv H. unfold u64max1. lia.
Qed.
Lemma decimal_psafe bl m : m < 65536 -> ~ (m = 0 \/ (bl = Debug /\ m mod 256 < m / 256)) -> psafe (parse_decimal bl m).
Proof.
  intros H1 H2. unfold parse_decimal. cbv zeta.
  assert (U : exists a, usub 65536 bl (m mod 256) ((m / 256) mod 256) = Ok a /\ (0 < a mod 256 \/ 0 < (m / 256) mod 256)).
  { unfold usub. destruct (N.leb_spec ((m / 256) mod 256) (m mod 256)) as [L|L].
    - eexists. split; [reflexivity|]. lia.
    - destruct bl; [exfalso; apply H2; right; split; [reflexivity|lia]|]. eexists. split; [reflexivity|]. right. lia. }
  destruct U as (a & U & HP). rewrite U. refine (psafe_bind_vals (fun x => x = a) _ _ _ _ _).
  - apply psafe_lift; exact I.
  - intros buf pos x pos' E. unfold lift in E. now inv E.
  - intros x ->. set (I0 := a mod 256) in *. set (S0 := (m / 256) mod 256) in *.
    set (L := I0 / 9 * 4 + compressed_bytes (I0 - I0 / 9 * 9) + S0 / 9 * 4 + compressed_bytes (S0 - S0 / 9 * 9)).
    pose proof (compressed_small (I0 - I0 / 9 * 9)). pose proof (compressed_small (S0 - S0 / 9 * 9)).
    assert (BI : I0 < 256) by (unfold I0; lia). assert (BS : S0 < 256) by (unfold S0; lia).
    assert (HL : 0 < L /\ L <= isize_max).
    { clearbody I0 S0. split; [|unfold L, isize_max; lia]. unfold L.
      destruct (N.eq_dec I0 0) as [Z|Z].
      - destruct (N.le_gt_cases 9 S0); [lia|]. pose proof (compressed_pos (S0 - S0 / 9 * 9)). lia.
      - destruct (N.le_gt_cases 9 I0); [lia|]. pose proof (compressed_pos (I0 - I0 / 9 * 9)). lia. }
    refine (psafe_bind_vals _ _ _ _ (pvals_bytes L) _); [apply psafe_read_bytes; apply HL|]. intros [|b r] Hb; [cbn [length] in Hb; lia|].
    apply psafe_lift. match goal with |- context [decimal_digits ?a ?b ?c ?d ?e ?f ?g ?h] => pose proof (psafe_decimal_digits a b c d e f g h) as X;
      destruct (decimal_digits a b c d e f g h) as [[t q]|er| |]; exact X end.
Qed.
Lemma cell_psafe bl ty m : m < 65536 -> ~ cell_risky bl ty m -> psafe (parse_cell bl ty m).
Proof.
  intros Hm Hr. destruct (coltype_from_code ty) as [ct|e| |] eqn:E.
  2: { unfold parse_cell. rewrite E. intros buf pos. exact I. }
  2, 3: exfalso; revert E; unfold coltype_from_code; destruct (find _ _) as [[? ?]|]; discriminate.
  rewrite (risky_ct bl ty m ct E) in Hr.
  assert (P : plain_cell ct = true \/ ct = CtString -> psafe (parse_cell bl ty m)).
  { intros P. apply (psafe_cell bl ty m ct E Hm). destruct ct; try exact I; destruct P as [P|P]; discriminate. }
  destruct ct; cbn [ct_risky] in Hr; try (apply P; now left); try (apply P; now right);
    try (apply (psafe_cell bl ty m _ E Hm); cbn [coltype_sane]; lia).
  all: unfold parse_cell; rewrite E; intros buf pos; unfold pbind at 1, lift at 1; revert buf pos;
    match goal with |- forall buf pos, returns (?p buf pos) => change (psafe p) end; apply psafe_vmap.
  - destruct (fractional_psafe bl m Hm Hr) as [F1 F2]. unfold parse_timestamp2. refine (psafe_bind_vals _ _ _ _ (pvals_be 4) _); [apply psafe_be; lia|intros s Hs4].
    refine (psafe_bind_vals _ _ _ _ F2 _); [exact F1|intros f Hf]. apply psafe_lift.
    rewrite uadd_ok; [exact I|]. change (256 ^ N.of_nat 4) with 4294967296 in Hs4. unfold u64max1 in *. lia.
  - destruct (fractional_psafe bl m Hm Hr) as [F1 F2]. unfold parse_date_time2. apply psafe_bind; [apply psafe_uint_be; lia|intros]. apply psafe_bind; [exact F1|intros; cbv zeta; psl].
  - destruct (fractional_psafe bl m Hm Hr) as [F1 F2]. unfold parse_time2. apply psafe_bind; [apply psafe_be; lia|intros]. apply psafe_bind; [exact F1|intros; cbv zeta].
    destruct (_ =? _); psl.
  - now apply decimal_psafe.
Qed.

(* ---- the column, through the hidden type ---- *)
Lemma column_step bl ty m buf pos ct : m < 65536 -> coltype_from_code ty = Ok ct ->
  column_parser bl ty m buf pos = parse_cell bl (fst (real_column ty m)) (snd (real_column ty m)) buf pos.
Proof.
  intros Hm E. unfold column_parser. rewrite E. unfold pbind at 1, lift at 1.
  assert (D : ct = CtString \/ ct <> CtString) by (destruct ct; (now left) || (now right)). destruct D as [->|D].
  - assert (ty = 254) as ->. { apply coltype_known in E. unfold coltype_table in E. cbn [In] in E. repeat (destruct E as [E|E]; [now inv E|]). contradiction. }
    cbv iota. rewrite real_string by exact Hm. destruct (real_column 254 m). reflexivity.
  - assert (R : real_column ty m = (ty, m)).
    { unfold real_column. destruct (N.eqb_spec ty 254) as [->|]; [|reflexivity]. exfalso. apply D. revert E. vm_compute. congruence. }
    rewrite R. destruct ct; try reflexivity. congruence.
Qed.
Lemma column_psafe bl ty m : m < 65536 -> ~ column_risky bl ty m -> psafe (column_parser bl ty m).
Proof.
  intros Hm Hr buf pos. destruct (coltype_from_code ty) as [ct|e| |] eqn:E.
  - rewrite (column_step bl ty m buf pos ct Hm E). apply cell_psafe; [now apply real_meta|exact Hr].
  - unfold column_parser. rewrite E. exact I.
  - exfalso; revert E; unfold coltype_from_code; destruct (find _ _) as [[? ?]|]; discriminate.
  - exfalso; revert E; unfold coltype_from_code; destruct (find _ _) as [[? ?]|]; discriminate.
Qed.

(* ---- a risky cell does panic: on sixteen bytes 255 ---- *)
Definition ones : list byte := repeat (n2b 255) 16.
Lemma bytes_enough n buf pos : n <= isize_max -> n <= N.of_nat (length buf - pos) ->
  exists bs, read_bytes n buf pos = Ok (bs, (pos + N.to_nat n)%nat).
Proof.
  intros H1 H2. unfold read_bytes, alloc. destruct (N.ltb_spec isize_max n); [lia|]. cbn [rbind].
  destruct (N.ltb_spec (N.of_nat (length buf - pos)) n); [lia|]. eauto.
Qed.
Lemma bytes_none buf pos : exists q, read_bytes 0 buf pos = Ok ([], q).
Proof.
  unfold read_bytes, alloc. change (isize_max <? 0) with false. cbv iota. cbn [rbind].
  destruct (N.ltb_spec (N.of_nat (length buf - pos)) 0); [lia|]. change (N.to_nat 0) with 0%nat. cbn [firstn]. eauto.
Qed.
Lemma uint_be_enough n buf pos : 1 <= n <= 8 -> n <= N.of_nat (length buf - pos) ->
  exists v, read_uint_be n buf pos = Ok (v, (pos + N.to_nat n)%nat).
Proof.
  intros H1 H2. unfold read_uint_be. destruct ((n =? 0) || (8 <? n)) eqn:E; [lia|]. unfold pbind.
  destruct (bytes_enough n buf pos) as (bs & ->); [unfold isize_max; lia|exact H2|]. unfold ret. eauto.
Qed.
Lemma fractional_panics bl m buf pos : m < 65536 -> (bl = Debug /\ 7 <= m) \/ (bl = Release /\ 17 <= m < 65535) ->
  8 <= N.of_nat (length buf - pos) -> parse_fractional bl m buf pos = Panic.
Proof.
  intros Hm H L. unfold parse_fractional. destruct (N.eq_dec m 65535) as [->|NE].
  - destruct H as [[-> _]|[_ X]]; [reflexivity|lia].
  - rewrite uadd_ok by lia. unfold pbind at 1, lift at 1. cbv zeta. destruct (N.eqb_spec ((m + 1) / 2) 0); [lia|]. unfold pbind.
    destruct (N.le_gt_cases ((m + 1) / 2) 8) as [C|C].
    + destruct (uint_be_enough ((m + 1) / 2) buf pos) as (v & ->); [lia|lia|]. destruct (N.leb_spec ((m + 1) / 2) 3); [lia|].
      destruct H as [[-> _]|[_ X]]; [reflexivity|lia].
    + unfold read_uint_be. destruct (((m + 1) / 2 =? 0) || (8 <? (m + 1) / 2)) eqn:E; [reflexivity|lia].
Qed.
Lemma be_enough k buf pos : (k <= 8)%nat -> N.of_nat k <= N.of_nat (length buf - pos) -> exists v, read_be k buf pos = Ok (v, (pos + k)%nat).
Proof.
  intros H1 H2. unfold read_be, pbind. destruct (bytes_enough (N.of_nat k) buf pos) as (bs & ->); [unfold isize_max; lia|exact H2|]. unfold ret.
  rewrite Nat2N.id. eauto.
Qed.
Lemma cell_panics bl ty m pre : m < 65536 -> cell_risky bl ty m -> parse_cell bl ty m (pre ++ ones) (length pre) = Panic.
Proof.
  intros Hm Hr. destruct (coltype_from_code ty) as [ct|e| |] eqn:E.
  2: { exfalso. now apply (risky_unknown bl ty m e E). }
  2, 3: exfalso; revert E; unfold coltype_from_code; destruct (find _ _) as [[? ?]|]; discriminate.
  rewrite (risky_ct bl ty m ct E) in Hr. unfold parse_cell. rewrite E. unfold pbind at 1, lift at 1.
  assert (LEN : (length (pre ++ ones) - length pre = 16)%nat) by (rewrite app_length; unfold ones; rewrite repeat_length; lia).
  assert (B : m = 0 \/ 8 <= m -> forall f : list byte -> value, (b <- parse_blob m ;; ret (f b)) (pre ++ ones) (length pre) = Panic).
  { intros H f. unfold parse_blob, pbind, read_uint_le. destruct (N.eq_dec m 8) as [->|NE].
    - change ((8 =? 0) || (8 <? 8)) with false. cbv iota. unfold pbind, read_bytes at 1, alloc.
      change (isize_max <? 8) with false. cbv iota. cbn [rbind]. rewrite LEN. change (N.of_nat 16 <? 8) with false. cbv iota.
      rewrite skipn_app, skipn_all, Nat.sub_diag. cbn [app skipn]. change (firstn (N.to_nat 8) ones) with (repeat (n2b 255) 8). unfold ret.
      assert (V : le_dec (repeat (n2b 255) 8) = 18446744073709551615) by (vm_compute; reflexivity). rewrite V. reflexivity.
    - destruct ((m =? 0) || (8 <? m)) eqn:X; [reflexivity|lia]. }
  assert (U : m = 0 \/ 9 <= m -> forall f : N -> value, (n <- read_uint_le m ;; ret (f n)) (pre ++ ones) (length pre) = Panic).
  { intros H f. unfold pbind, read_uint_le. destruct ((m =? 0) || (8 <? m)) eqn:X; [reflexivity|lia]. }
  destruct ct; cbn [ct_risky] in Hr; try contradiction; try (now apply B); try (now apply U).
  - unfold parse_timestamp2, pbind. destruct (be_enough 4 (pre ++ ones) (length pre)) as (v & ->); [lia|lia|].
    rewrite (fractional_panics bl m); [reflexivity|exact Hm|exact Hr|lia].
  - unfold parse_date_time2, pbind. destruct (uint_be_enough 5 (pre ++ ones) (length pre)) as (v & ->); [lia|lia|].
    rewrite (fractional_panics bl m); [reflexivity|exact Hm|exact Hr|lia].
  - unfold parse_time2, pbind. destruct (be_enough 3 (pre ++ ones) (length pre)) as (v & ->); [lia|lia|].
    rewrite (fractional_panics bl m); [reflexivity|exact Hm|exact Hr|lia].
  - unfold parse_decimal, pbind. cbv zeta. destruct Hr as [->|[-> Hr]].
    + rewrite usub_ok by (vm_compute; discriminate). unfold lift at 1. change (0 mod 256) with 0. change ((0 / 256) mod 256) with 0.
      change ((0 - 0) mod 256) with 0. change (0 / 9 * 4 + compressed_bytes (0 - 0 / 9 * 9) + 0 / 9 * 4 + compressed_bytes (0 - 0 / 9 * 9)) with 0.
      destruct (bytes_none (pre ++ ones) (length pre)) as (q & ->). reflexivity.
    + unfold usub. destruct (N.leb_spec (m / 256 mod 256) (m mod 256)); [lia|]. reflexivity.
Qed.
Lemma column_panics bl ty m pre : m < 65536 -> column_risky bl ty m -> (exists ct, coltype_from_code ty = Ok ct) ->
  column_parser bl ty m (pre ++ ones) (length pre) = Panic.
Proof.
  intros Hm Hr (ct & E). rewrite (column_step bl ty m _ _ ct Hm E). apply cell_panics; [now apply real_meta|exact Hr].
Qed.
Lemma risky_known bl ty m : m < 65536 -> column_risky bl ty m -> exists ct, coltype_from_code ty = Ok ct.
Proof.
  intros Hm Hr. destruct (coltype_from_code ty) as [ct|e| |] eqn:E; [eauto| | |].
  - exfalso. unfold column_risky, real_column in Hr. destruct (N.eqb_spec ty 254) as [->|]; [discriminate E|]. cbn [andb fst snd] in Hr.
    now apply (risky_unknown bl ty m e E).
  - exfalso; revert E; unfold coltype_from_code; destruct (find _ _) as [[? ?]|]; discriminate.
  - exfalso; revert E; unfold coltype_from_code; destruct (find _ _) as [[? ?]|]; discriminate.
Qed.

(* ---- rows ---- *)
Lemma columns_psafe bl types : forall metas ps nulls, (length types <= length metas)%nat -> Forall (fun m => m < 65536) metas ->
  Forall (fun p => ~ column_risky bl (fst p) (snd p)) (combine types metas) -> (length types <= length ps)%nat ->
  (trues ps <= length nulls)%nat -> psafe (parse_columns bl types metas ps nulls).
Proof.
  unfold trues. induction types as [|ty types IH]; intros metas ps nulls Hl Ht Hs Hp Hn; cbn [parse_columns]; [psl|].
  destruct metas as [|m metas]; [cbn [length] in Hl; lia|]. cbn [combine] in Hs. inversion Hs as [|x y Hs1 Hs2]; subst. cbn [fst snd] in Hs1. inversion Ht as [|x y Ht1 Ht2]; subst.
  destruct ps as [|[|] ps]; cbn [length filter tl] in *; [lia| |].
  - destruct nulls as [|[|] nulls]; cbn [length] in *; [lia| |].
    + apply psafe_bind; [apply IH; try assumption; lia|intros; psl].
    + pose proof (column_psafe bl ty m Ht1 Hs1) as X. unfold column_parser in X.
      intros buf pos. specialize (X buf pos). unfold pbind at 1. unfold pbind at 1 in X. destruct (lift (coltype_from_code ty) buf pos) as [[ct q]|e| |]; try exact X.
      destruct (match ct with CtString => actual_string_type ty m | _ => (ty, m) end) as [ty2 m2]. unfold pbind.
      destruct (parse_cell bl ty2 m2 buf q) as [[v q2]|e| |]; try exact X.
      pose proof (IH metas ps nulls ltac:(lia) Ht2 Hs2 ltac:(lia) ltac:(lia) buf q2) as Y.
      destruct (parse_columns bl types metas ps nulls buf q2) as [[cells q3]|e| |]; exact Y.
  - apply psafe_bind; [apply IH; try assumption; lia|intros; psl].
Qed.
Lemma cell_risky_dec bl ty m : cell_risky bl ty m \/ ~ cell_risky bl ty m.
Proof.
  unfold cell_risky. destruct (has ty [245; 249; 250; 251; 252; 255]); [lia|]. destruct (has ty [247; 248]); [lia|].
  destruct (has ty [17; 18; 19]).
  { destruct bl; [destruct (N.le_gt_cases 7 m); [left; left; auto|right; intros [[_ X]|[X _]]; [lia|discriminate]]
     |destruct (N.le_gt_cases 17 m), (N.lt_ge_cases m 65535); [left; right; auto|right; intros [[X _]|[_ X]]; [discriminate|lia]..]]. }
  destruct (ty =? 246); [|tauto]. destruct (N.eq_dec m 0) as [->|]; [left; now left|].
  destruct bl; [destruct (N.lt_ge_cases (m mod 256) (m / 256)); [left; right; auto|right; intros [X|[_ X]]; [congruence|lia]]|right; intros [X|[X _]]; congruence].
Qed.
Lemma table_risky_dec bl t : table_risky bl t \/ ((length (tb_types t) <= length (tb_meta t))%nat /\
  Forall (fun p => ~ column_risky bl (fst p) (snd p)) (combine (tb_types t) (tb_meta t))).
Proof.
  unfold table_risky. destruct (Nat.lt_ge_cases (length (tb_meta t)) (length (tb_types t))) as [L|L]; [left; now left|].
  assert (D : forall l, Exists (fun p => column_risky bl (fst p) (snd p)) l \/ Forall (fun p => ~ column_risky bl (fst p) (snd p)) l).
  { induction l as [|p l IH]; [right; constructor|]. destruct (cell_risky_dec bl (fst (real_column (fst p) (snd p))) (snd (real_column (fst p) (snd p)))) as [R|R].
    - left. now apply Exists_cons_hd.
    - destruct IH as [IH|IH]; [left; now apply Exists_cons_tl|right; now apply Forall_cons]. }
  destruct (D (combine (tb_types t) (tb_meta t))); [left; now right|right; auto].
Qed.
Lemma row_psafe bl t ps : Forall (fun m => m < 65536) (tb_meta t) -> (length (tb_types t) <= length (tb_meta t))%nat ->
  Forall (fun p => ~ column_risky bl (fst p) (snd p)) (combine (tb_types t) (tb_meta t)) ->
  (length (tb_types t) <= length ps)%nat -> N.of_nat (length ps) <= isize_max ->
  psafe (parse_row bl t ps (bits_number ps)).
Proof.
  intros H0 H1 H2 Hp Hm. unfold parse_row. assert (B : bits_number ps <= N.of_nat (length ps)).
  { unfold bits_number. clear. induction ps as [|[|] ps IH]; cbn [filter length]; lia. }
  refine (psafe_bind_vals _ _ _ _ (pvals_bitmap (bits_number ps)) _); [apply psafe_bitmap; lia|]. intros nulls Hn.
  apply columns_psafe; try assumption. unfold trues, bits_number in *. lia.
Qed.

Lemma rows_panic' bl ts ty v payload : tables_typed ts -> rows_version ty = Some v ->
  parse_rows_event bl ts v payload 0%nat = Panic -> wrong_columns ts ty payload \/ risky_event bl ts ty payload.
Proof.
  intros Hs Hv H. unfold parse_rows_event, pbind at 1 in H. pose proof (psafe_head v payload 0%nat) as X.
  destruct (parse_head v payload 0%nat) as [[[[id fl] n] pos]|e| |] eqn:E; try discriminate; [|contradiction]. clear X.
  apply head_announces in E.
  assert (W : 9223372036854775807 < n \/ (exists t, tables_get id ts = Some t /\ n < N.of_nat (length (tb_types t))) -> wrong_columns ts ty payload).
  { intros W. exists v, id, n, (skipn pos payload). auto. }
  unfold pbind at 1 in H. destruct (read_bitmap_le n payload pos) as [[present p1]|e| |] eqn:E2; try discriminate; [|left; apply W; left; now apply bitmap_panic in E2].
  assert (Hm : N.of_nat (length present) = n) by (apply pvals_bitmap in E2; lia).
  destruct (N.lt_ge_cases isize_max n) as [C|C]; [left; apply W; now left|].
  unfold pbind in H. unfold parse_row_list in H. destruct (tables_get id ts) as [t|] eqn:T; [|discriminate].
  destruct (N.lt_ge_cases n (N.of_nat (length (tb_types t)))) as [D|D]; [left; apply W; right; eauto|].
  destruct (table_risky_dec bl t) as [R|[R1 R2]]; [right; exists v, id, n, (skipn pos payload), t; auto|]. exfalso.
  pose proof (pwhile_nopanic _ (psafe_nopanic _ (row_psafe bl t present (Hs _ _ T) R1 R2 ltac:(lia) ltac:(lia))) payload p1) as Y.
  destruct (pwhile _ payload p1) as [[l q]|e| |]; try discriminate. now apply Y.
Qed.
Lemma updates_panic' bl ts ty v payload : tables_typed ts -> rows_version ty = Some v ->
  parse_update_event bl ts v payload 0%nat = Panic -> wrong_columns ts ty payload \/ risky_event bl ts ty payload.
Proof.
  intros Hs Hv H. unfold parse_update_event, pbind at 1 in H. pose proof (psafe_head v payload 0%nat) as X.
  destruct (parse_head v payload 0%nat) as [[[[id fl] n] pos]|e| |] eqn:E; try discriminate; [|contradiction]. clear X.
  apply head_announces in E.
  assert (W : 9223372036854775807 < n \/ (exists t, tables_get id ts = Some t /\ n < N.of_nat (length (tb_types t))) -> wrong_columns ts ty payload).
  { intros W. exists v, id, n, (skipn pos payload). auto. }
  unfold pbind at 1 in H. destruct (read_bitmap_le n payload pos) as [[before p1]|e| |] eqn:E2; try discriminate; [|left; apply W; left; now apply bitmap_panic in E2].
  unfold pbind at 1 in H. destruct (read_bitmap_le n payload p1) as [[after p2]|e| |] eqn:E3; try discriminate; [|left; apply W; left; now apply bitmap_panic in E3].
  assert (Hm : N.of_nat (length before) = n) by (apply pvals_bitmap in E2; lia).
  assert (Hm' : N.of_nat (length after) = n) by (apply pvals_bitmap in E3; lia).
  destruct (N.lt_ge_cases isize_max n) as [C|C]; [left; apply W; now left|].
  unfold pbind at 1 in H. unfold parse_update_row_list in H. destruct (tables_get id ts) as [t|] eqn:T; [|discriminate].
  destruct (N.lt_ge_cases n (N.of_nat (length (tb_types t)))) as [D|D]; [left; apply W; right; eauto|].
  destruct (table_risky_dec bl t) as [R|[R1 R2]]; [right; exists v, id, n, (skipn pos payload), t; auto|]. exfalso.
  match type of H with match pwhile ?p payload p2 with _ => _ end = _ => assert (G : psafe p) end.
  { apply psafe_bind; [apply row_psafe; [exact (Hs _ _ T)|exact R1|exact R2|lia|lia]|intros]. apply psafe_bind; [apply row_psafe; [exact (Hs _ _ T)|exact R1|exact R2|lia|lia]|intros; psl]. }
  pose proof (pwhile_nopanic _ (psafe_nopanic _ G) payload p2) as Y.
  destruct (pwhile _ payload p2) as [[l q]|e| |]; try discriminate. now apply Y.
Qed.
Lemma body_panic' bl ts h payload : tables_typed ts -> event_body bl ts h payload 0%nat = Panic ->
  (bl = Debug /\ h_type h = 15 /\ h_length h mod 256 < 19) \/ (bl = Debug /\ h_type h = 35) \/
  (h_type h = 19 /\ huge_length payload) \/ wrong_columns ts (h_type h) payload \/ risky_event bl ts (h_type h) payload.
Proof.
  intros Hs. unfold event_body. cbv zeta.
  destruct (N.eqb_spec (h_type h) 15) as [E15|].
  { intros E. apply pmap_panic in E. left. destruct (N.lt_ge_cases (h_length h mod 256) 19) as [L|L].
    - destruct bl; [tauto|]. exfalso. revert E. apply psafe_nopanic, psafe_format. now left.
    - exfalso. revert E. apply psafe_nopanic, psafe_format. now right. }
  destruct (N.eqb_spec (h_type h) 19) as [E19|]; [intros E; apply pmap_panic, pp_table_map in E; tauto|].
  destruct (N.eqb_spec (h_type h) 27); [pan_case (psafe_to_string)|].
  destruct (N.eqb_spec (h_type h) 4); [pan_case (psafe_rotate)|].
  destruct (N.eqb_spec (h_type h) 5); [pan_case (psafe_intvar)|].
  destruct (N.eqb_spec (h_type h) 14); [pan_case (psafe_uservar)|].
  destruct (N.eqb_spec (h_type h) 2); [pan_case (psafe_query)|].
  destruct (N.eqb_spec (h_type h) 16); [pan_case (psafe_xid)|].
  destruct (N.eqb_spec (h_type h) 23) as [E|]; [intros D; apply pmap_panic, (rows_panic' bl ts (h_type h)) in D; [tauto|exact Hs|now rewrite E]|].
  destruct (N.eqb_spec (h_type h) 24) as [E|]; [intros D; apply pmap_panic, (updates_panic' bl ts (h_type h)) in D; [tauto|exact Hs|now rewrite E]|].
  destruct (N.eqb_spec (h_type h) 25) as [E|]; [intros D; apply pmap_panic, (rows_panic' bl ts (h_type h)) in D; [tauto|exact Hs|now rewrite E]|].
  destruct (N.eqb_spec (h_type h) 30) as [E|]; [intros D; apply pmap_panic, (rows_panic' bl ts (h_type h)) in D; [tauto|exact Hs|now rewrite E]|].
  destruct (N.eqb_spec (h_type h) 31) as [E|]; [intros D; apply pmap_panic, (updates_panic' bl ts (h_type h)) in D; [tauto|exact Hs|now rewrite E]|].
  destruct (N.eqb_spec (h_type h) 32) as [E|]; [intros D; apply pmap_panic, (rows_panic' bl ts (h_type h)) in D; [tauto|exact Hs|now rewrite E]|].
  destruct (N.eqb_spec (h_type h) 29); [pan_case (psafe_rows_query)|].
  destruct (N.eqb_spec (h_type h) 33); [pan_case (psafe_mysql_gtid)|].
  destruct (N.eqb_spec (h_type h) 35).
  { intros E. apply pmap_panic in E. destruct bl; [tauto|]. exfalso. revert E. apply psafe_nopanic, psafe_prev_gtids_release. }
  destruct (N.eqb_spec (h_type h) 162); [pan_case (psafe_maria_gtid h)|].
  destruct (N.eqb_spec (h_type h) 163); [pan_case (psafe_maria_list)|].
  destruct (N.eqb_spec (h_type h) 160); [pan_case (psafe_to_string)|].
  discriminate.
Qed.

(* ---- tables made by the decoder ---- *)
Definition table_made (t : table_map) : Prop := length (tb_meta t) = length (tb_types t) /\ Forall (fun m => m < 65536) (tb_meta t).
Lemma pvals_tail {A B} (P : B -> Prop) (p : parser A) (f : A -> parser B) : (forall a, pvals P (f a)) -> pvals P (pbind p f).
Proof.
  intros H buf pos b pos'. unfold pbind. destruct (p buf pos) as [[a q]|e| |]; try discriminate. apply H.
Qed.
Lemma pvals_step {A B} (Q : A -> Prop) (P : B -> Prop) (p : parser A) (f : A -> parser B) : pvals Q p -> (forall a, Q a -> pvals P (f a)) -> pvals P (pbind p f).
Proof.
  intros H1 H2 buf pos b pos'. unfold pbind. destruct (p buf pos) as [[a q]|e| |] eqn:E; try discriminate. apply H2. now apply H1 in E.
Qed.
Lemma pvals_ret {A} (P : A -> Prop) a : P a -> pvals P (ret a).
Proof. intros H buf pos b pos' E. unfold ret in E. now inv E. Qed.
Lemma pvals_column_meta c : pvals (fun m => m < 65536) (column_meta c).
Proof.
  unfold column_meta. apply pvals_tail. intros ct.
  assert (L : forall k, (k <= 2)%nat -> forall n : N, n < 256 ^ N.of_nat k -> n < 65536).
  { intros k Hk n Hn. apply N.lt_le_trans with (1 := Hn). change 65536 with (256 ^ 2). apply N.pow_le_mono_r; lia. }
  assert (L1 : pvals (fun m => m < 65536) (read_le 1)) by (intros buf pos a q E; apply pvals_le in E; revert E; apply (L 1%nat); lia).
  assert (L2 : pvals (fun m => m < 65536) (read_le 2)) by (intros buf pos a q E; apply pvals_le in E; revert E; apply (L 2%nat); lia).
  assert (L3 : pvals (fun m => m < 65536) (read_be 2)) by (intros buf pos a q E; apply pvals_be in E; revert E; apply (L 2%nat); lia).
  destruct ct; first [exact L1 | exact L2 | exact L3 | apply pvals_ret; lia].
Qed.
Lemma pvals_columns_meta cs : pvals (fun ms => length ms = length cs /\ Forall (fun m => m < 65536) ms) (columns_meta cs).
Proof.
  induction cs as [|c cs IH]; cbn [columns_meta]; [apply pvals_ret; split; [reflexivity|constructor]|].
  refine (pvals_step _ _ _ _ (pvals_column_meta c) _). intros m Hm. refine (pvals_step _ _ _ _ IH _). intros ms [H1 H2].
  apply pvals_ret. cbn [length]. split; [now rewrite H1|now constructor].
Qed.
Lemma pvals_table_map : pvals table_made parse_table_map.
Proof.
  unfold parse_table_map. do 9 (apply pvals_tail; intros ?). apply pvals_tail. intros cts. cbv zeta. apply pvals_tail. intros _.
  refine (pvals_step _ _ _ _ (pvals_columns_meta (map b2n cts)) _). intros ms [H1 H2]. do 4 (apply pvals_tail; intros ?).
  apply pvals_ret. split; assumption.
Qed.
Lemma event_body_table bl ts h payload t q : event_body bl ts h payload 0%nat = Ok (EvTableMap t, q) -> table_made t.
Proof.
  assert (P : forall A (f : A -> event) (p : parser A) (Q : Prop), (forall a, f a <> EvTableMap t) -> pmap f p payload 0%nat = Ok (EvTableMap t, q) -> Q).
  { intros A f p Q N E. unfold pmap, pbind in E. destruct (p payload 0%nat) as [[a r]|e| |]; try discriminate. unfold ret in E. inv E. now apply N in H0. }
  unfold event_body. cbv zeta. destruct (h_type h =? 15); [apply P; discriminate|]. destruct (h_type h =? 19).
  { intros E. unfold pmap, pbind in E. destruct (parse_table_map payload 0%nat) as [[a r]|e| |] eqn:T; try discriminate. unfold ret in E. inv E. now apply pvals_table_map in T. }
  repeat (match goal with |- (if ?b then _ else _) _ _ = _ -> _ => destruct b; [apply P; discriminate|] end).
  discriminate.
Qed.
Lemma tables_put_get id t ts k u : tables_get k (tables_put id t ts) = Some u -> u = t \/ tables_get k ts = Some u.
Proof.
  induction ts as [|[k' u'] ts IH]; cbn [tables_put tables_get].
  - destruct (id =? k); [|discriminate]. intros H. inv H. now left.
  - destruct (N.eqb_spec k' id) as [->|]; cbn [tables_get].
    + destruct (id =? k); [intros H; inv H; now left|now right].
    + destruct (k' =? k); [now right|exact IH].
Qed.
Definition tables_made (ts : tables) : Prop := forall id t, tables_get id ts = Some t -> table_made t.
Lemma parse_event_made bl st h slice e st' : parse_event bl st h slice = Ok (e, st') -> tables_made (ps_tables st) -> tables_made (ps_tables st').
Proof.
  unfold parse_event. destruct (event_payload (ps_checksum st) slice) as [payload|er| |]; cbn [rbind]; try discriminate.
  destruct (event_body bl (ps_tables st) h payload 0%nat) as [[x q]|er| |] eqn:B; try discriminate. intros E. injection E as -> <-. intros M.
  destruct e; cbn [after_event ps_tables]; try exact M. intros id u G. apply tables_put_get in G.
  destruct G as [->|G]; [now apply event_body_table in B|now apply M in G].
Qed.
Lemma history_made bl st l es st' : history bl st l es st' -> tables_made (ps_tables st) -> tables_made (ps_tables st').
Proof. induction 1; auto. intros M. apply IHhistory. eapply parse_event_made; eassumption. Qed.
