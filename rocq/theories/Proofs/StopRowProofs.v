(* Exactly which rows events, and which events at all, make the decoder panic. *)
From Verif Require Import Base.Tac Base.Bytes Base.Text Base.Res Base.Str Base.Parse Base.Loop Model.Codec Model.Values Model.Decimal Model.Cells
  Model.TableMap Model.Rows Model.Gtid Model.GtidMaria Model.Events Spec.CodecSpec Spec.EventSpec Spec.CellSpec Spec.TableSpec Spec.SafeSpec Spec.StopSpec
  Proofs.CodecProofs Proofs.EventSafe Proofs.RowProofs Proofs.DecodeSafe Proofs.RiskProofs Proofs.OnceProofs Proofs.StopProofs Proofs.StopTableProofs Proofs.StopCellProofs.
Local Open Scope N_scope.

(* ---- columns ---- *)
Definition step (bl : build) (ty m : N) : parser value := column_parser bl ty m.
Lemma exactp_step bl ty m : exactp (step bl ty m).
Proof. unfold step, column_parser. exb; [ex|]. destruct (match a with CtString => _ | _ => _ end). apply exactp_cell. Qed.
Lemma both_step bl ty m : m < 65536 -> both (step bl ty m) (fun s => In ty known_types /\ cell_reads bl (fst (real_column ty m)) (snd (real_column ty m)) s)
  (fun s => In ty known_types /\ cell_stops bl (fst (real_column ty m)) (snd (real_column ty m)) s).
Proof.
  intros Hm. split; [apply exactp_step|]. destruct (coltype_from_code ty) as [ct|e| |] eqn:E.
  2: { assert (F : forall buf pos, step bl ty m buf pos = Err e) by (intros; unfold step, column_parser; now rewrite E).
       assert (NK : ~ In ty known_types) by (intros K; destruct (known_coltype ty K) as (ct & K2 & _); congruence). split.
       - intros s. split; [intros (v & R); apply runs_here in R; rewrite F in R; discriminate|tauto].
       - intros pre rest. rewrite F. split; [discriminate|tauto]. }
  2, 3: exfalso; revert E; unfold coltype_from_code; destruct (find _ _) as [[? ?]|]; discriminate.
  pose proof (coltype_is_known ty ct E) as K. destruct (cell_exact bl (fst (real_column ty m)) (snd (real_column ty m)) (real_meta ty m Hm)) as [Ct Cp]. split.
  - intros s. specialize (Ct s). split.
    + intros (v & R). split; [exact K|]. apply Ct. exists v. intros pre post. rewrite <- (column_step bl ty m _ _ ct Hm E). apply R.
    + intros [_ C]. apply Ct in C. destruct C as (v & R). exists v. intros pre post. unfold step. rewrite (column_step bl ty m _ _ ct Hm E). apply R.
  - intros pre rest. unfold step. rewrite (column_step bl ty m _ _ ct Hm E), (Cp pre rest). tauto.
Qed.
Lemma columns_eq bl ty types m metas present nulls buf pos : parse_columns bl (ty :: types) (m :: metas) (true :: present) (false :: nulls) buf pos =
  (v <- step bl ty m ;; cells <- parse_columns bl types metas present nulls ;; ret (Some v :: cells)) buf pos.
Proof.
  unfold step, column_parser. cbn [parse_columns]. rewrite ForwardProofs.pbind_assoc. apply ForwardProofs.pbind_ext. intros ct q.
  destruct (match ct with CtString => actual_string_type ty m | _ => (ty, m) end). reflexivity.
Qed.
Definition trues (bits : list bool) : nat := count_occ Bool.bool_dec bits true.
Lemma both_columns bl : forall types metas present nulls, Forall (fun m => m < 65536) metas -> (trues present <= length nulls)%nat ->
  both (parse_columns bl types metas present nulls) (columns_read bl types metas present nulls) (columns_stop bl types metas present nulls).
Proof.
  induction types as [|ty types IH]; intros metas present nulls Hm Hn.
  { split; [apply exactp_columns|]. cbn [parse_columns]. split.
    - intros s. split; [intros (v & R); apply runs_ret_iff in R; destruct R as [-> _]; constructor|]. intros C. inv C. eexists. apply runs_ret.
    - intros pre rest. split; [discriminate|]. intros C. inv C. }
  assert (Ht : Forall (fun m => m < 65536) (tl metas)) by (destruct metas; [exact Hm|now inv Hm]).
  destruct present as [|[|] present].
  - split; [apply exactp_columns|]. split.
    + intros s. split; [intros (v & R); apply runs_here in R; discriminate|]. intros C. inv C.
    + intros pre rest. split; [|reflexivity]. intros _. constructor.
  - unfold trues in Hn. cbn [count_occ] in Hn. destruct (Bool.bool_dec true true) as [_|]; [|congruence]. destruct nulls as [|[|] nulls]; [cbn [length] in Hn; lia| |]; cbn [length] in Hn.
    + specialize (IH (tl metas) present nulls Ht ltac:(unfold trues; lia)). apply (both_map _ (fun cells => None :: cells)) in IH. cbn [parse_columns].
      apply (both_conv _ _ _ _ _ IH); intros s; split; intros C; try (now constructor); now inv C.
    + destruct metas as [|m metas].
      { split; [apply exactp_columns|]. split.
        - intros s. split; [intros (v & R); apply runs_here in R; discriminate|]. intros C. inv C.
        - intros pre rest. split; [|reflexivity]. intros _. constructor. }
      inversion Hm as [|? ? Hm1 Hm2]; subst. specialize (IH metas present nulls Hm2 ltac:(unfold trues; lia)). destruct (both_step bl ty m Hm1) as (Se & St & Sp).
      assert (IHs : forall v, both (cells <- parse_columns bl types metas present nulls ;; ret (Some v :: cells)) (columns_read bl types metas present nulls) (columns_stop bl types metas present nulls)) by (intros v; now apply both_map).
      split; [apply exactp_columns|].
      assert (T : takes (v <- step bl ty m ;; cells <- parse_columns bl types metas present nulls ;; ret (Some v :: cells)) (columns_read bl (ty :: types) (m :: metas) (true :: present) (false :: nulls))).
      { eapply takes_conv; [|apply takes_bind; [exact Se|intros v; apply (IHs v)|intros v; apply (IHs v)]]. intros s. cbv beta. split.
        - intros (s1 & s2 & v & -> & R & C). destruct (proj1 (St s1) (ex_intro _ _ R)) as [K C1]. now constructor.
        - intros C. inv C. match goal with K : In ty known_types, C1 : cell_reads _ _ _ ?c |- _ => destruct (proj2 (St c) (conj K C1)) as (v & R); exists c, bs, v; auto end. }
      assert (P : pans (v <- step bl ty m ;; cells <- parse_columns bl types metas present nulls ;; ret (Some v :: cells)) (columns_stop bl (ty :: types) (m :: metas) (true :: present) (false :: nulls))).
      { eapply pans_conv; [|apply pans_bind; [exact Se|exact Sp|intros v; apply (IHs v)]]. intros s. cbv beta. split.
        - intros [[K C]|(s1 & v & s2 & -> & R & C)]; [now constructor|]. destruct (proj1 (St s1) (ex_intro _ _ R)) as [K C1]. now apply cs_next.
        - intros C. inv C; [left; auto|]. right. match goal with K : In ty known_types, C1 : cell_reads _ _ _ ?c |- _ => destruct (proj2 (St c) (conj K C1)) as (v & R); exists c, v, bs; auto end. }
      split; [|now apply (pans_eq _ _ _ (columns_eq bl ty types m metas present nulls))].
      intros s. rewrite <- (T s). split; intros (v & R); exists v; intros pre post; [rewrite <- columns_eq|rewrite columns_eq]; apply R.
  - assert (Hn' : (trues present <= length nulls)%nat) by (unfold trues in *; cbn [count_occ] in Hn; destruct (Bool.bool_dec false true); [discriminate|exact Hn]).
    specialize (IH (tl metas) present nulls Ht Hn'). apply (both_map _ (fun cells => None :: cells)) in IH. cbn [parse_columns].
    apply (both_conv _ _ _ _ _ IH); intros s; split; intros C; try (now constructor); now inv C.
Qed.

(* ---- images ---- *)
Lemma bits_same n bs : bitmap_of n bs -> firstn (N.to_nat n) (flat_map bits_le bs) = bits_of n bs.
Proof.
  intros H. unfold bitmap_of in H. rewrite bits_le_number. unfold number_bits, bits_of. rewrite firstn_map. f_equal.
  replace (8 * length bs)%nat with (N.to_nat n + (8 * length bs - N.to_nat n))%nat by lia. rewrite seq_app, firstn_app, seq_length, Nat.sub_diag. cbn [firstn].
  rewrite app_nil_r. rewrite <- (seq_length (N.to_nat n) 0) at 1. apply firstn_all.
Qed.
Lemma runs_bitmap_iff n s v : runs (read_bitmap_le n) s v <-> bitmap_of n s /\ n <= isize_max /\ v = bits_of n s.
Proof.
  split.
  - intros R. destruct (proj1 (takes_bitmap n s) (ex_intro _ _ R)) as [L M]. split; [exact L|]. split; [exact M|]. apply runs_here in R.
    destruct (bitmap_inv _ _ _ _ _ R ltac:(lia)) as (bs & rest & E & L2 & _ & L3 & ->). cbn [skipn Nat.add] in *. subst s. rewrite app_length in L3. destruct rest; [|cbn [length] in L3; lia].
    rewrite app_nil_r in *. now apply bits_same.
  - intros (L & M & ->). intros pre post. rewrite (bitmap_reads n _ (length pre) s post); [now rewrite bits_same|now rewrite skipn_app, skipn_all, Nat.sub_diag|exact L|exact M|rewrite app_length; lia].
Qed.
Lemma ones_number bits : bits_number bits = ones_in bits.
Proof.
  unfold bits_number, ones_in. f_equal. induction bits as [|[|] bits IH]; [reflexivity| |]; cbn [filter count_occ length].
  - destruct (Bool.bool_dec true true); [|congruence]. now rewrite IH.
  - destruct (Bool.bool_dec false true); [discriminate|]. exact IH.
Qed.
Lemma ones_small bits : ones_in bits <= N.of_nat (length bits).
Proof. unfold ones_in. pose proof (count_occ_bound Bool.bool_dec true bits). lia. Qed.
Lemma bits_of_length n bs : length (bits_of n bs) = N.to_nat n.
Proof. unfold bits_of. now rewrite map_length, seq_length. Qed.
Lemma both_row bl t present : Forall (fun m => m < 65536) (tb_meta t) -> N.of_nat (length present) <= isize_max ->
  both (parse_row bl t present (bits_number present)) (image_reads bl t present) (image_stops bl t present).
Proof.
  intros Hm Hl. rewrite ones_number. pose proof (ones_small present) as Ho. split; [apply exactp_row|]. unfold parse_row.
  assert (G : forall nb, both (parse_columns bl (tb_types t) (tb_meta t) present (bits_of (ones_in present) nb)) (columns_read bl (tb_types t) (tb_meta t) present (bits_of (ones_in present) nb))
    (columns_stop bl (tb_types t) (tb_meta t) present (bits_of (ones_in present) nb))).
  { intros nb. apply both_columns; [exact Hm|]. rewrite bits_of_length. unfold ones_in, trues. lia. }
  split.
  - eapply takes_conv; [|apply takes_bind; [ex|intros; apply exactp_columns|intros a s; apply (iff_refl _)]]. intros s. cbv beta. unfold image_reads. split.
    + intros (s1 & s2 & a & -> & R & T). apply runs_bitmap_iff in R. destruct R as (B & _ & ->). exists s1, s2. split; [reflexivity|]. split; [exact B|]. now apply (G s1).
    + intros (nb & cells & -> & B & C). exists nb, cells, (bits_of (ones_in present) nb). split; [reflexivity|]. split; [apply runs_bitmap_iff; split; [exact B|]; split; [lia|reflexivity]|]. now apply (G nb).
  - intros pre rest. unfold pbind. split.
    + destruct (read_bitmap_le (ones_in present) (pre ++ rest) (length pre)) as [[a q]|e| |] eqn:E; try discriminate; [|apply bitmap_panic in E; unfold isize_max in *; lia].
      destruct (runs_uses _ (exactp_bitmap _) _ _ _ _ E) as (nb & cells & -> & R & ->). apply runs_bitmap_iff in R. destruct R as (B & _ & ->). intros P. exists nb, cells. split; [reflexivity|]. split; [exact B|].
      rewrite app_assoc in P. now apply (G nb) in P.
    + intros (nb & cells & -> & B & C). assert (R : runs (read_bitmap_le (ones_in present)) nb (bits_of (ones_in present) nb)) by (apply runs_bitmap_iff; split; [exact B|]; split; [lia|reflexivity]).
      rewrite (R pre cells). apply (proj2 (proj2 (G nb)) (pre ++ nb)) in C. rewrite <- app_assoc, app_length in C. exact C.
Qed.
Lemma both_one bl t p : Forall (fun m => m < 65536) (tb_meta t) -> N.of_nat (length p) <= isize_max ->
  both (parse_row bl t p (bits_number p)) (images_read bl t [p]) (images_stop bl t [p]).
Proof.
  intros Hm Hl. apply (both_conv _ _ _ _ _ (both_row bl t p Hm Hl)); intros s; cbn [images_read images_stop]; split.
  - intros C. exists s, []. rewrite app_nil_r. auto.
  - intros (a & b & -> & C & ->). now rewrite app_nil_r.
  - auto.
  - intros [C|(a & b & _ & _ & [])]. exact C.
Qed.
Lemma both_two bl t p q : Forall (fun m => m < 65536) (tb_meta t) -> N.of_nat (length p) <= isize_max -> N.of_nat (length q) <= isize_max ->
  both (x <- parse_row bl t p (bits_number p) ;; y <- parse_row bl t q (bits_number q) ;; ret (x, y)) (images_read bl t [p; q]) (images_stop bl t [p; q]).
Proof.
  intros Hm Hp Hq. pose proof (both_row bl t p Hm Hp) as (Pe & Pt & Pp). pose proof (both_row bl t q Hm Hq) as Bq.
  assert (B2 : forall x : row, both (y <- parse_row bl t q (bits_number q) ;; ret (x, y)) (image_reads bl t q) (image_stops bl t q)) by (intros x; now apply both_map).
  split; [apply exactp_pair|]. split.
  - eapply takes_conv; [|apply takes_bind; [exact Pe|intros x; apply (B2 x)|intros x; apply (B2 x)]]. intros s. cbv beta. cbn [images_read]. split.
    + intros (s1 & s2 & x & -> & R & C). exists s1, s2. split; [reflexivity|]. split; [apply Pt; now exists x|]. exists s2, []. rewrite app_nil_r. auto.
    + intros (a & b & -> & C & a2 & b2 & -> & C2 & ->). rewrite app_nil_r. apply Pt in C. destruct C as (x & R). exists a, a2, x. auto.
  - eapply pans_conv; [|apply pans_bind; [exact Pe|exact Pp|intros x; apply (B2 x)]]. intros s. cbv beta. cbn [images_stop]. split.
    + intros [C|(s1 & x & s2 & -> & R & C)]; [now left|]. right. exists s1, s2. split; [reflexivity|]. split; [apply Pt; now exists x|now left].
    + intros [C|(a & b & -> & C & [C2|(? & ? & _ & _ & [])])]; [now left|]. right. apply Pt in C. destruct C as (x & R). exists a, x, b. auto.
Qed.

(* ---- behind the head ---- *)
Definition behind_head (bl : build) (ts : tables) (two : bool) (id n : N) (rest : list byte) : Prop :=
  too_long n \/ exists maps tail t, rest = concat maps ++ tail /\ n <= 9223372036854775807 /\ length maps = (if two then 2%nat else 1%nat) /\ Forall (bitmap_of n) maps /\ tables_get id ts = Some t /\
    breaks (images_read bl t (map (bits_of n) maps)) (images_stop bl t (map (bits_of n) maps)) tail.
Lemma pans_map {A B} (p : parser A) (f : A -> B) X : pans p X -> pans (x <- p ;; ret (f x)) X.
Proof. intros H pre rest. rewrite <- (H pre rest). unfold pbind. destruct (p (pre ++ rest) (length pre)) as [[a q]|e| |]; split; discriminate || reflexivity. Qed.
Lemma pans_row_list bl ts id n nb : tables_typed ts -> n <= isize_max -> pans (parse_row_list bl ts id (bits_of n nb))
  (fun tail => exists t, tables_get id ts = Some t /\ breaks (images_read bl t [bits_of n nb]) (images_stop bl t [bits_of n nb]) tail).
Proof.
  intros Ht Hn. unfold parse_row_list. destruct (tables_get id ts) as [t|] eqn:T.
  - destruct (both_one bl t (bits_of n nb) (Ht _ _ T)) as (E & R & P); [rewrite bits_of_length; lia|]. eapply pans_conv; [|apply (pans_pwhile _ _ _ E P R)].
    intros tail. split; [intros B; now exists t|]. intros (t' & Q & B). injection Q as <-. exact B.
  - intros pre rest. split; [discriminate|]. intros (t & Q & _). discriminate.
Qed.
Lemma pans_update_list bl ts id n nb nb2 : tables_typed ts -> n <= isize_max -> pans (parse_update_row_list bl ts id (bits_of n nb) (bits_of n nb2))
  (fun tail => exists t, tables_get id ts = Some t /\ breaks (images_read bl t [bits_of n nb; bits_of n nb2]) (images_stop bl t [bits_of n nb; bits_of n nb2]) tail).
Proof.
  intros Ht Hn. unfold parse_update_row_list. destruct (tables_get id ts) as [t|] eqn:T.
  - destruct (both_two bl t (bits_of n nb) (bits_of n nb2) (Ht _ _ T)) as (E & R & P); [rewrite bits_of_length; lia..|]. eapply pans_conv; [|apply (pans_pwhile _ _ _ E P R)].
    intros tail. split; [intros B; now exists t|]. intros (t' & Q & B). injection Q as <-. exact B.
  - intros pre rest. split; [discriminate|]. intros (t & Q & _). discriminate.
Qed.
(* a bitmap, then a parser for which its bits matter *)
Lemma pans_after_bitmap {A} n (f : list bool -> parser A) (X : list byte -> list byte -> Prop) : (n <= isize_max -> forall nb, bitmap_of n nb -> pans (f (bits_of n nb)) (X nb)) ->
  pans (pbind (read_bitmap_le n) f) (fun rest => too_long n \/ n <= isize_max /\ exists nb tail, rest = nb ++ tail /\ bitmap_of n nb /\ X nb tail).
Proof.
  intros Hf pre rest. unfold pbind. split.
  - destruct (read_bitmap_le n (pre ++ rest) (length pre)) as [[bits q]|e| |] eqn:E; try discriminate; [|intros _; left; now apply bitmap_panic in E].
    destruct (runs_uses _ (exactp_bitmap _) _ _ _ _ E) as (nb & tail & -> & R & ->). apply runs_bitmap_iff in R. destruct R as (B & M & ->). intros P. right. split; [exact M|].
    exists nb, tail. split; [reflexivity|]. split; [exact B|]. rewrite app_assoc in P. now apply (Hf M nb B) in P.
  - intros [T|(M & nb & tail & -> & B & C)]; [apply (pans_bitmap n pre rest) in T; now rewrite T|].
    assert (R : runs (read_bitmap_le n) nb (bits_of n nb)) by (apply runs_bitmap_iff; auto). rewrite (R pre tail). apply (Hf M nb B (pre ++ nb)) in C. rewrite <- app_assoc, app_length in C. exact C.
Qed.
Lemma rows_tail {A} bl ts id n (f : list bool -> list row -> A) : tables_typed ts ->
  pans (present <- read_bitmap_le n ;; rows <- parse_row_list bl ts id present ;; ret (f present rows)) (behind_head bl ts false id n).
Proof.
  intros Ht. eapply pans_conv; [|apply pans_after_bitmap; intros M nb _; apply pans_map, pans_row_list; [exact Ht|exact M]]. intros rest. unfold behind_head. split.
  - intros [T|(M & nb & tail & -> & B & t & T & C)]; [now left|]. right. exists [nb], tail, t. cbn [concat map]. rewrite app_nil_r. repeat split; try assumption. constructor; [exact B|constructor].
  - intros [T|(maps & tail & t & -> & M & L & F & T & C)]; [now left|]. right. destruct maps as [|nb [|? ?]]; try discriminate L. inv F. split; [exact M|]. exists nb, tail. cbn [concat]. rewrite app_nil_r.
    split; [reflexivity|]. split; [assumption|]. now exists t.
Qed.
Lemma updates_tail {A} bl ts id n (f : list bool -> list bool -> list update_row -> A) : tables_typed ts ->
  pans (b <- read_bitmap_le n ;; a <- read_bitmap_le n ;; rows <- parse_update_row_list bl ts id b a ;; ret (f b a rows)) (behind_head bl ts true id n).
Proof.
  intros Ht. eapply pans_conv; [|apply pans_after_bitmap; intros M nb _; apply pans_after_bitmap; intros _ nb2 _; apply pans_map, pans_update_list; [exact Ht|exact M]]. intros rest. unfold behind_head. split.
  - intros [T|(M & nb & tail & -> & B & [T|(_ & nb2 & tail2 & -> & B2 & t & T & C)])]; [now left|now left|]. right. exists [nb; nb2], tail2, t. cbn [concat map]. rewrite app_nil_r, <- app_assoc.
    repeat split; try assumption. constructor; [exact B|]. constructor; [exact B2|constructor].
  - intros [T|(maps & tail & t & -> & M & L & F & T & C)]; [now left|]. right. destruct maps as [|nb [|nb2 [|? ?]]]; try discriminate L. inversion F as [|? ? B F2]; subst. inversion F2 as [|? ? B2 F3]; subst.
    split; [exact M|]. exists nb, (nb2 ++ tail). cbn [concat]. rewrite app_nil_r, <- app_assoc. split; [reflexivity|]. split; [assumption|]. right. split; [exact M|]. exists nb2, tail. split; [reflexivity|]. split; [assumption|]. now exists t.
Qed.
(* ---- with the head ---- *)
Lemma lenenc_one n count : lenenc n count -> (length count <= 1)%nat -> n < 251.
Proof. intros H. inv H; cbn [length]; rewrite ?le_enc_length; lia. Qed.
Lemma head_tail {A} v payload (g : N -> N -> N -> parser A) (X : N -> N -> list byte -> Prop) : (forall id fl n, pans (g id fl n) (X id n)) ->
  (forall id n rest, X id n rest -> too_long n \/ rest <> []) ->
  ('(id, fl, n) <- parse_head v ;; g id fl n) payload 0%nat = Panic <-> exists id n rest, announces v payload id n rest /\ X id n rest.
Proof.
  intros Hg Hx. unfold pbind at 1. split.
  - pose proof (psafe_head v payload 0%nat) as S. destruct (parse_head v payload 0%nat) as [[[[id fl] n] pos]|e| |] eqn:E; try discriminate; [|contradiction]. clear S. intros P.
    pose proof (head_announces _ _ _ _ _ _ E) as An. destruct (head_pieces _ _ _ _ _ _ E) as (hh & count & rest & EP & _ & _ & Hpos & _).
    exists id, n, (skipn pos payload). split; [exact An|]. apply (Hg id fl n (firstn pos payload)). rewrite firstn_skipn, firstn_length.
    replace (Nat.min pos (length payload)) with pos by (rewrite EP, Hpos, !app_length; lia). exact P.
  - intros (id & n & rest & An & C). assert (Long : v = 2 -> (10 <= length payload)%nat).
    { intros _. destruct An as (_ & count & Cn & E). apply (f_equal (@length byte)) in E. rewrite skipn_length, app_length in E. pose proof (lenenc_nonempty _ _ Cn) as Ne.
      destruct (Hx _ _ _ C) as [T|Nr].
      - destruct (Nat.le_gt_cases (length count) 1) as [L|L]; [apply (lenenc_one _ _ Cn) in L; unfold too_long in T; lia|]. lia.
      - destruct count; [congruence|]. destruct rest; [congruence|]. cbn [length] in E. lia. }
    destruct (announced_head _ _ _ _ _ Long An) as (fl & -> & Er). apply (Hg id fl n (firstn (length payload - length rest) payload)) in C.
    rewrite Er in C at 2. rewrite firstn_skipn, firstn_length in C. replace (Nat.min (length payload - length rest) (length payload)) with (length payload - length rest)%nat in C by lia. exact C.
Qed.
Lemma tail_nonempty bl ts two id n rest : behind_head bl ts two id n rest -> too_long n \/ rest <> [].
Proof.
  intros [T|(maps & tail & t & -> & _ & _ & _ & _ & g & x & -> & _ & N & _)]; [now left|]. right. intros E. apply app_eq_nil in E. destruct E as [_ E]. apply app_eq_nil in E. now destruct E.
Qed.
Lemma rows_panics bl ts v payload : tables_typed ts -> parse_rows_event bl ts v payload 0%nat = Panic <->
  exists id n rest, announces v payload id n rest /\ behind_head bl ts false id n rest.
Proof.
  intros Ht. apply (head_tail v payload (fun id fl n => present <- read_bitmap_le n ;; rows <- parse_row_list bl ts id present ;; ret (RowsEvent id fl n present rows)) (behind_head bl ts false)).
  - intros id fl n. now apply (rows_tail bl ts id n (fun present rows => RowsEvent id fl n present rows)).
  - apply tail_nonempty.
Qed.
Lemma updates_panics bl ts v payload : tables_typed ts -> parse_update_event bl ts v payload 0%nat = Panic <->
  exists id n rest, announces v payload id n rest /\ behind_head bl ts true id n rest.
Proof.
  intros Ht. apply (head_tail v payload (fun id fl n => b <- read_bitmap_le n ;; a <- read_bitmap_le n ;; rows <- parse_update_row_list bl ts id b a ;; ret (UpdateEvent id fl n b a rows)) (behind_head bl ts true)).
  - intros id fl n. now apply (updates_tail bl ts id n (fun b a rows => UpdateEvent id fl n b a rows)).
  - apply tail_nonempty.
Qed.

(* ---- any event ---- *)
Lemma pmap_panic_iff {A B} (f : A -> B) p buf pos : pmap f p buf pos = Panic <-> p buf pos = Panic.
Proof. split; [apply pmap_panic|]. intros H. unfold pmap, pbind. now rewrite H. Qed.
Lemma stop_rows bl ts ty v payload : tables_typed ts -> rows_version ty = Some v -> has ty [24; 31] = false -> parse_rows_event bl ts v payload 0%nat = Panic <-> rows_stop bl ts ty payload.
Proof.
  intros Ht Hv H2. rewrite rows_panics by exact Ht. unfold rows_stop, behind_head. rewrite H2. split.
  - intros (id & n & rest & A & C). exists v, id, n, rest. auto.
  - intros (v' & id & n & rest & Hv' & A & C). rewrite Hv in Hv'. injection Hv' as <-. exists id, n, rest. auto.
Qed.
Lemma stop_updates bl ts ty v payload : tables_typed ts -> rows_version ty = Some v -> has ty [24; 31] = true -> parse_update_event bl ts v payload 0%nat = Panic <-> rows_stop bl ts ty payload.
Proof.
  intros Ht Hv H2. rewrite updates_panics by exact Ht. unfold rows_stop, behind_head. rewrite H2. split.
  - intros (id & n & rest & A & C). exists v, id, n, rest. auto.
  - intros (v' & id & n & rest & Hv' & A & C). rewrite Hv in Hv'. injection Hv' as <-. exists id, n, rest. auto.
Qed.
Ltac no_stop := let X := fresh in intros [X|[X|[X|X]]]; [lia|lia|lia|destruct X as (? & ? & ? & ? & X & _); congruence].
Lemma body_stops bl ts h payload : tables_typed ts -> event_body bl ts h payload 0%nat = Panic <-> payload_stops bl ts h payload.
Proof.
  intros Ht. unfold event_body, payload_stops. cbv zeta.
  assert (RS : forall ty, rows_version ty = None -> ~ rows_stop bl ts ty payload) by (intros ty H (? & ? & ? & ? & X & _); congruence).
  destruct (N.eqb_spec (h_type h) 15) as [E|].
  { rewrite E. rewrite pmap_panic_iff. destruct bl.
    - rewrite format_panics. pose proof (RS 15 eq_refl). intuition (discriminate || lia).
    - split; [intros P; exfalso; revert P; apply psafe_nopanic, psafe_format; now left|]. pose proof (RS 15 eq_refl). intuition (discriminate || lia). }
  destruct (N.eqb_spec (h_type h) 19) as [E|].
  { rewrite E, pmap_panic_iff, table_map_panics. pose proof (RS 19 eq_refl). intuition (discriminate || lia). }
  assert (Quiet : forall ty, h_type h = ty -> ty <> 35 -> rows_version ty = None -> ~ ((bl = Debug /\ h_type h = 15 /\ format_stops (h_length h) payload) \/
    (bl = Debug /\ h_type h = 35 /\ previous_stops payload) \/ (h_type h = 19 /\ table_map_stops payload) \/ rows_stop bl ts (h_type h) payload)).
  { intros ty E N R. rewrite E. pose proof (RS ty R). rewrite E in *. intuition lia. }
  assert (Safe : forall (p : parser event) ty, h_type h = ty -> ty <> 35 -> rows_version ty = None -> psafe p -> p payload 0%nat = Panic <-> (bl = Debug /\ h_type h = 15 /\ format_stops (h_length h) payload) \/
    (bl = Debug /\ h_type h = 35 /\ previous_stops payload) \/ (h_type h = 19 /\ table_map_stops payload) \/ rows_stop bl ts (h_type h) payload).
  { intros p ty E N R S. split; [intros P; exfalso; revert P; now apply psafe_nopanic|]. intros X. exfalso. revert X. now apply (Quiet ty). }
  assert (Row : forall ty (p : parser event), h_type h = ty -> ty <> 15 -> ty <> 19 -> ty <> 35 -> (p payload 0%nat = Panic <-> rows_stop bl ts ty payload) -> p payload 0%nat = Panic <-> (bl = Debug /\ h_type h = 15 /\ format_stops (h_length h) payload) \/
    (bl = Debug /\ h_type h = 35 /\ previous_stops payload) \/ (h_type h = 19 /\ table_map_stops payload) \/ rows_stop bl ts (h_type h) payload).
  { intros ty p E N1 N2 N3 R. rewrite R, E. intuition lia. }
  destruct (N.eqb_spec (h_type h) 27) as [E|]; [apply (Safe _ 27 E); [lia|reflexivity|apply psafe_pmap, psafe_to_string]|].
  destruct (N.eqb_spec (h_type h) 4) as [E|]; [apply (Safe _ 4 E); [lia|reflexivity|apply psafe_pmap, psafe_rotate]|].
  destruct (N.eqb_spec (h_type h) 5) as [E|]; [apply (Safe _ 5 E); [lia|reflexivity|apply psafe_pmap, psafe_intvar]|].
  destruct (N.eqb_spec (h_type h) 14) as [E|]; [apply (Safe _ 14 E); [lia|reflexivity|apply psafe_pmap, psafe_uservar]|].
  destruct (N.eqb_spec (h_type h) 2) as [E|]; [apply (Safe _ 2 E); [lia|reflexivity|apply psafe_pmap, psafe_query]|].
  destruct (N.eqb_spec (h_type h) 16) as [E|]; [apply (Safe _ 16 E); [lia|reflexivity|apply psafe_pmap, psafe_xid]|].
  destruct (N.eqb_spec (h_type h) 23) as [E|]; [apply (Row 23 _ E); [lia..|]; rewrite pmap_panic_iff; now apply stop_rows|].
  destruct (N.eqb_spec (h_type h) 24) as [E|]; [apply (Row 24 _ E); [lia..|]; rewrite pmap_panic_iff; now apply stop_updates|].
  destruct (N.eqb_spec (h_type h) 25) as [E|]; [apply (Row 25 _ E); [lia..|]; rewrite pmap_panic_iff; now apply stop_rows|].
  destruct (N.eqb_spec (h_type h) 30) as [E|]; [apply (Row 30 _ E); [lia..|]; rewrite pmap_panic_iff; now apply stop_rows|].
  destruct (N.eqb_spec (h_type h) 31) as [E|]; [apply (Row 31 _ E); [lia..|]; rewrite pmap_panic_iff; now apply stop_updates|].
  destruct (N.eqb_spec (h_type h) 32) as [E|]; [apply (Row 32 _ E); [lia..|]; rewrite pmap_panic_iff; now apply stop_rows|].
  destruct (N.eqb_spec (h_type h) 29) as [E|]; [apply (Safe _ 29 E); [lia|reflexivity|apply psafe_pmap, psafe_rows_query]|].
  destruct (N.eqb_spec (h_type h) 33) as [E|]; [apply (Safe _ 33 E); [lia|reflexivity|apply psafe_pmap, psafe_mysql_gtid]|].
  destruct (N.eqb_spec (h_type h) 35) as [E|].
  { rewrite E, pmap_panic_iff. pose proof (RS 35 eq_refl). destruct bl; [rewrite previous_panics; intuition (discriminate || lia)|].
    split; [intros P; exfalso; revert P; apply psafe_nopanic, psafe_prev_gtids_release|intuition (discriminate || lia)]. }
  destruct (N.eqb_spec (h_type h) 162) as [E|]; [apply (Safe _ 162 E); [lia|reflexivity|apply psafe_pmap, (psafe_maria_gtid h)]|].
  destruct (N.eqb_spec (h_type h) 163) as [E|]; [apply (Safe _ 163 E); [lia|reflexivity|apply psafe_pmap, psafe_maria_list]|].
  destruct (N.eqb_spec (h_type h) 160) as [E|]; [apply (Safe _ 160 E); [lia|reflexivity|apply psafe_pmap, psafe_to_string]|].
  split; [discriminate|]. intros [X|[X|[X|(v & ? & ? & ? & X & _)]]]; [lia|lia|lia|]. exfalso. revert X. unfold rows_version, has. cbn [existsb].
  repeat match goal with |- context [?a =? ?b] => destruct (N.eqb_spec a b); [contradiction|] end. discriminate.
Qed.
Theorem event_panics bl st h slice : tables_typed (ps_tables st) -> parse_event bl st h slice = Panic <-> event_stops bl st h slice.
Proof.
  intros Ht. unfold parse_event, event_payload, event_stops.
  assert (B : forall payload, match event_body bl (ps_tables st) h payload 0%nat with Ok (e, _) => Ok (e, after_event st e) | Err e => Err e | Panic => Panic | Diverge => Diverge end = Panic <-> payload_stops bl (ps_tables st) h payload).
  { intros payload. rewrite <- (body_stops bl _ h payload Ht). destruct (event_body bl (ps_tables st) h payload 0%nat) as [[e q]|e| |]; split; discriminate || reflexivity. }
  destruct (ps_checksum st); cbn [rbind]; [apply B|]. destruct (Nat.ltb_spec (length slice) 4) as [L|L]; cbn [rbind].
  - split; [intros _; now left|reflexivity].
  - rewrite (B (firstn (length slice - 4) slice)). split.
    + intros P. right. exists (firstn (length slice - 4) slice), (skipn (length slice - 4) slice). rewrite firstn_skipn, skipn_length. split; [reflexivity|]. split; [lia|exact P].
    + intros [X|(payload & crc & -> & C & P)]; [lia|]. replace (length (payload ++ crc) - 4)%nat with (length payload) by (rewrite app_length; lia).
      now rewrite firstn_app, firstn_all, Nat.sub_diag, app_nil_r.
Qed.
