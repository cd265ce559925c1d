(* Row parsers look at exactly the bytes they consume. *)
From Verif Require Import Base.Tac Base.Bytes Base.Text Base.Res Base.Str Base.Parse Base.Loop Model.Codec Model.Values Model.Decimal Model.Cells
  Model.TableMap Model.Rows Model.Gtid Model.Events Spec.CodecSpec Spec.CellSpec Spec.TableSpec Spec.SafeSpec Proofs.CodecProofs Proofs.EventSafe Proofs.RowProofs Proofs.DecodeSafe.
Local Open Scope N_scope.

Definition exactp {A} (p : parser A) : Prop := forall buf pos a q, p buf pos = Ok (a, q) -> (pos <= length buf)%nat ->
  exists pre bs post, buf = pre ++ bs ++ post /\ length pre = pos /\ q = (pos + length bs)%nat /\ runs p bs a.

Lemma app_cut {A} (a b c d : list A) : length a = length c -> a ++ b = c ++ d -> a = c /\ b = d.
Proof.
  revert c. induction a as [|x a IH]; intros [|y c] L E; cbn [length app] in *; try discriminate; [auto|].
  injection E as -> E. injection L as L. destruct (IH _ L E) as [-> ->]. auto.
Qed.

Lemma exactp_ret {A} (a : A) : exactp (ret a).
Proof.
  intros buf pos b q E H. unfold ret in E. inv E. exists (firstn q buf), [], (skipn q buf). cbn [app length].
  rewrite firstn_skipn, firstn_length. repeat split; try lia. apply runs_ret.
Qed.
Lemma exactp_fail {A} e : exactp (@fail A e). Proof. intros buf pos a q E. discriminate. Qed.
Lemma exactp_panic {A} : exactp (fun _ _ => @Panic (A * nat)). Proof. intros buf pos a q E. discriminate. Qed.
Lemma exactp_lift {A} (r : res A) : exactp (lift r).
Proof.
  intros buf pos b q E H. unfold lift in E. destruct r as [x|e| |] eqn:R; inv E. exists (firstn q buf), [], (skipn q buf). cbn [app length].
  rewrite firstn_skipn, firstn_length. repeat split; try lia. now apply runs_lift.
Qed.
Lemma exactp_bind {A B} (p : parser A) (f : A -> parser B) : exactp p -> (forall a, exactp (f a)) -> exactp (pbind p f).
Proof.
  intros Hp Hf buf pos b q E L. unfold pbind in E. destruct (p buf pos) as [[a q1]|e| |] eqn:P; try discriminate.
  destruct (Hp _ _ _ _ P L) as (pre & b1 & post & -> & <- & -> & R1).
  destruct (Hf a _ _ _ _ E) as (pre2 & b2 & post2 & E2 & L2 & -> & R2); [rewrite !app_length; lia|].
  assert (X : pre2 = pre ++ b1 /\ b2 ++ post2 = post).
  { rewrite app_assoc in E2. apply app_cut in E2; [intuition congruence|rewrite app_length; lia]. }
  destruct X as [-> <-]. exists pre, (b1 ++ b2), post2. rewrite <- app_assoc. split; [reflexivity|]. split; [reflexivity|].
  split; [rewrite app_length; lia|]. eapply runs_bind; eassumption.
Qed.
Lemma exactp_bytes n : exactp (read_bytes n).
Proof.
  intros buf pos b q E L. unfold read_bytes, alloc in E. destruct (N.ltb_spec isize_max n); [discriminate|]. cbn [rbind] in E.
  destruct (N.ltb_spec (N.of_nat (length buf - pos)) n); [discriminate|]. inv E.
  exists (firstn pos buf), (firstn (N.to_nat n) (skipn pos buf)), (skipn (N.to_nat n) (skipn pos buf)).
  rewrite !firstn_skipn. rewrite !firstn_length, skipn_length. repeat split; try lia. apply runs_read_bytes; [rewrite firstn_length, skipn_length; lia|assumption].
Qed.
Ltac ex := first [apply exactp_ret | apply exactp_fail | apply exactp_panic | apply exactp_lift | apply exactp_bytes].
Ltac exb := apply exactp_bind; [|intros].
Lemma exactp_le k : exactp (read_le k). Proof. exb; ex. Qed.
Lemma exactp_be k : exactp (read_be k). Proof. exb; ex. Qed.
Lemma exactp_uint_le n : exactp (read_uint_le n). Proof. unfold read_uint_le. destruct (_ || _); [ex|]. exb; ex. Qed.
Lemma exactp_uint_be n : exactp (read_uint_be n). Proof. unfold read_uint_be. destruct (_ || _); [ex|]. exb; ex. Qed.
Lemma exactp_string n : exactp (read_string n). Proof. exb; ex. Qed.
Lemma exactp_bitmap n : exactp (read_bitmap_le n). Proof. exb; [ex|]. exb; ex. Qed.
Lemma exactp_bitmap_be n : exactp (read_bitmap_be n). Proof. exb; [ex|]. exb; ex. Qed.
Ltac ex ::= first [apply exactp_ret | apply exactp_fail | apply exactp_panic | apply exactp_lift | apply exactp_bytes | apply exactp_le | apply exactp_be
  | apply exactp_uint_le | apply exactp_uint_be | apply exactp_string | apply exactp_bitmap | apply exactp_bitmap_be].
Lemma exactp_lenenc : exactp read_len_enc_num.
Proof. unfold read_len_enc_num. exb; [ex|]. repeat (match goal with |- exactp (if ?b then _ else _) => destruct b end; try ex). Qed.
Lemma exactp_fractional bl m : exactp (parse_fractional bl m).
Proof. unfold parse_fractional. exb; [ex|]. cbv zeta. destruct (_ =? _); [ex|]. exb; [ex|]. destruct (_ <=? _); [ex|]. destruct bl; ex. Qed.
Lemma exactp_cell bl ty m : exactp (parse_cell bl ty m).
Proof.
  unfold parse_cell. exb; [ex|]. rename a into ct. destruct ct; try ex; (exb; [|ex]); try ex;
  unfold parse_string, parse_blob, parse_timestamp, parse_date, parse_time, parse_date_time, parse_year, parse_bit, parse_timestamp2,
    parse_date_time2, parse_time2, parse_decimal; cbv zeta;
  repeat first [ex | apply exactp_fractional | match goal with |- exactp (if ?b then _ else _) => destruct b end | exb | match goal with |- exactp (match ?b with nil => _ | cons _ _ => _ end) => destruct b end].
Qed.
Lemma exactp_columns bl types : forall metas ps nulls, exactp (parse_columns bl types metas ps nulls).
Proof.
  induction types as [|ty types IH]; intros metas ps nulls; cbn [parse_columns]; [ex|].
  destruct ps as [|[|] ps]; [ex| |exb; [apply IH|ex]]. destruct nulls as [|[|] nulls]; [ex|exb; [apply IH|ex]|].
  destruct metas as [|m metas]; [ex|]. exb; [ex|]. destruct (match a with CtString => _ | _ => _ end) as [ty2 m2].
  exb; [apply exactp_cell|]. exb; [apply IH|ex].
Qed.
Lemma exactp_row bl t ps n : exactp (parse_row bl t ps n).
Proof. unfold parse_row. exb; [ex|]. apply exactp_columns. Qed.

(* the loop cuts the rest of the payload into one piece per value *)
Lemma pwhile_pieces {A} (p : parser A) : exactp p -> forall buf pos xs q, pwhile p buf pos = Ok (xs, q) -> (pos <= length buf)%nat ->
  q = length buf /\ exists segs, skipn pos buf = concat segs /\ Forall2 (fun seg x => runs p seg x) segs xs.
Proof.
  intros Hp buf pos xs q. unfold pwhile. generalize (S (length buf)) as fuel. intros fuel. revert pos xs.
  induction fuel as [|f IH]; intros pos xs; cbn [pwhile_aux]; destruct (Nat.ltb_spec pos (length buf)) as [L|L]; try discriminate.
  - intros E H. inv E. split; [lia|]. exists []. split; [|constructor]. apply skipn_all2. lia.
  - intros E H. unfold pbind in E. destruct (p buf pos) as [[a q1]|e| |] eqn:P; try discriminate.
    destruct (pwhile_aux f p buf q1) as [[ys q2]|e| |] eqn:W; try discriminate. unfold ret in E. inv E.
    destruct (Hp _ _ _ _ P H) as (pre & bs & post & -> & <- & -> & R).
    destruct (IH _ _ W) as (-> & segs & S & F); [rewrite !app_length; lia|]. split; [reflexivity|].
    exists (bs :: segs). split; [|now constructor]. cbn [concat]. rewrite <- S.
    rewrite skipn_app, skipn_all, Nat.sub_diag. cbn [app skipn]. f_equal. rewrite app_assoc, <- app_length, skipn_app, skipn_all, Nat.sub_diag. reflexivity.
  - intros E H. inv E. split; [lia|]. exists []. split; [|constructor]. apply skipn_all2. lia.
Qed.

(* a round that reads nothing is repeated for ever *)
Lemma pwhile_stuck {A} (p : parser A) buf pos a : p buf pos = Ok (a, pos) -> (pos < length buf)%nat -> pwhile p buf pos = Diverge.
Proof.
  intros P L. unfold pwhile. generalize (S (length buf)) as fuel. induction fuel as [|f IH]; cbn [pwhile_aux]; destruct (Nat.ltb_spec pos (length buf)); try lia; [reflexivity|].
  unfold pbind. rewrite P, IH. reflexivity.
Qed.
Lemma pwhile_nonempty {A} (p : parser A) : exactp p -> forall buf pos xs q, pwhile p buf pos = Ok (xs, q) -> (pos <= length buf)%nat ->
  exists segs, skipn pos buf = concat segs /\ Forall2 (fun seg x => seg <> [] /\ runs p seg x) segs xs.
Proof.
  intros Hp buf pos xs q. unfold pwhile. generalize (S (length buf)) as fuel. intros fuel. revert pos xs.
  induction fuel as [|f IH]; intros pos xs; cbn [pwhile_aux]; destruct (Nat.ltb_spec pos (length buf)) as [L|L]; try discriminate.
  - intros E H. inv E. exists []. split; [|constructor]. apply skipn_all2. lia.
  - intros E H. unfold pbind in E. destruct (p buf pos) as [[a q1]|e| |] eqn:P; try discriminate.
    destruct (pwhile_aux f p buf q1) as [[ys q2]|e| |] eqn:W; try discriminate. unfold ret in E. inv E.
    destruct (Hp _ _ _ _ P H) as (pre & bs & post & -> & <- & -> & R).
    assert (Hne : bs <> []).
    { intros ->. cbn [length] in *. rewrite Nat.add_0_r in *. clear IH. revert W P L. generalize (pre ++ [] ++ post) as buf, (length pre) as n. clear. intros buf n W P L.
      revert ys W. induction f as [|f IH]; intros ys; cbn [pwhile_aux]; destruct (Nat.ltb_spec n (length buf)); try lia; try discriminate.
      unfold pbind. rewrite P. destruct (pwhile_aux f p buf n) as [[zs q3]|e| |] eqn:Z; try discriminate. unfold ret. intros E. inv E. now apply (IH zs). }
    destruct (IH _ _ W) as (segs & S & F); [rewrite !app_length; lia|].
    exists (bs :: segs). split; [|now constructor]. cbn [concat]. rewrite <- S.
    rewrite skipn_app, skipn_all, Nat.sub_diag. cbn [app skipn]. f_equal. rewrite app_assoc, <- app_length, skipn_app, skipn_all, Nat.sub_diag. reflexivity.
  - intros E H. inv E. exists []. split; [|constructor]. apply skipn_all2. lia.
Qed.

(* ---- the head ---- *)
Lemma read_le_room k buf pos n pos' : read_le k buf pos = Ok (n, pos') -> (pos' <= length buf \/ k = 0)%nat.
Proof.
  unfold read_le, pbind, read_bytes, rbind. destruct (alloc (N.of_nat k)); try discriminate.
  destruct (N.ltb_spec (N.of_nat (length buf - pos)) (N.of_nat k)); [discriminate|]. unfold ret. rewrite Nat2N.id. intros H1. inv H1. lia.
Qed.
Lemma head_pieces v payload id fl n pos : parse_head v payload 0%nat = Ok ((id, fl, n), pos) ->
  exists head count rest, payload = head ++ count ++ rest /\ length head = (8 + extra_length v payload)%nat /\ lenenc n count /\
    pos = length (head ++ count) /\ id = le_dec (firstn 6 payload).
Proof.
  unfold parse_head, pbind at 1. destruct (read_u48 payload 0%nat) as [[i p1]|e| |] eqn:E1; try discriminate.
  apply read_le_inv in E1. destruct E1 as [E1 ->]. unfold pbind at 1. destruct (read_u16 payload (0 + 6)%nat) as [[f p2]|e| |] eqn:E2; try discriminate.
  apply read_le_inv in E2. destruct E2 as [E2 ->]. unfold pbind at 1.
  assert (G : forall u p3, (if v =? 2 then extra <- read_u16 ;; seek_cur (Z.of_N extra - 2) else ret tt) payload (0 + 6 + 2)%nat = Ok (u, p3) ->
    p3 = (8 + extra_length v payload)%nat).
  { intros u p3. unfold extra_length. destruct (v =? 2); [|unfold ret; intros H; inv H; reflexivity]. unfold pbind.
    destruct (read_u16 payload (0 + 6 + 2)%nat) as [[x p]|e| |] eqn:E3; try discriminate. apply read_le_inv in E3. destruct E3 as [E3 ->].
    unfold seek_cur. change (0 + 6 + 2)%nat with 8%nat in E3. rewrite <- E3. clear E3. destruct (_ <? _)%Z eqn:L; [discriminate|]. intros H. assert (K : p3 = Z.to_nat (Z.of_nat (0 + 6 + 2 + 2) + (Z.of_N x - 2))) by congruence. lia. }
  destruct ((if v =? 2 then extra <- read_u16 ;; seek_cur (Z.of_N extra - 2) else ret tt) payload (0 + 6 + 2)%nat) as [[u p3]|e| |]; try discriminate.
  specialize (G u p3 eq_refl). subst p3. unfold pbind.
  destruct (read_len_enc_num payload (8 + extra_length v payload)%nat) as [[c p4]|e| |] eqn:E4; try discriminate. unfold ret. intros H. inv H.
  set (h := (8 + extra_length v payload)%nat) in *.
  apply lenenc_inv in E4. destruct E4 as (bs & E4 & E5 & ->).
  exists (firstn h payload), bs, (skipn (length bs) (skipn h payload)).
  pose proof (lenenc_nonempty _ _ E4) as Ne.
  assert (L : length (firstn h payload) = h).
  { rewrite firstn_length. destruct (Nat.le_gt_cases h (length payload)); [lia|]. rewrite skipn_all2, firstn_nil in E5 by lia. congruence. }
  repeat split.
  - rewrite <- E5 at 1. now rewrite !firstn_skipn.
  - exact L.
  - exact E4.
  - rewrite app_length. lia.
Qed.
Lemma read_le_ok k buf pos : (k <= 8)%nat -> (pos + k <= length buf)%nat -> read_le k buf pos = Ok (le_dec (firstn k (skipn pos buf)), (pos + k)%nat).
Proof.
  intros Hk H. unfold read_le, pbind, read_bytes, rbind, alloc. destruct (N.ltb_spec isize_max (N.of_nat k)); [unfold isize_max in *; lia|].
  destruct (N.ltb_spec (N.of_nat (length buf - pos)) (N.of_nat k)); [lia|]. unfold ret. now rewrite Nat2N.id.
Qed.
Lemma announced_head v payload id n rest : (v = 2 -> (10 <= length payload)%nat) -> announces v payload id n rest ->
  exists fl, parse_head v payload 0%nat = Ok ((id, fl, n), (length payload - length rest)%nat) /\ rest = skipn (length payload - length rest) payload.
Proof.
  intros Hv (-> & count & C & E). pose proof (lenenc_nonempty _ _ C) as Ne.
  assert (L : length payload = (8 + extra_length v payload + length count + length rest)%nat).
  { apply (f_equal (@length byte)) in E. rewrite skipn_length, app_length in E. destruct count; [congruence|]. cbn [length] in *. lia. }
  assert (R : rest = skipn (length payload - length rest) payload).
  { replace (length payload - length rest)%nat with (8 + extra_length v payload + length count)%nat by lia. rewrite skipn_plus, E, skipn_app, skipn_all, Nat.sub_diag. reflexivity. }
  assert (X : (if v =? 2 then extra <- read_u16 ;; seek_cur (Z.of_N extra - 2) else ret tt) payload (0 + 6 + 2)%nat
    = Ok (tt, (8 + extra_length v payload)%nat)).
  { clear R L. unfold extra_length. destruct (N.eqb_spec v 2) as [->|]; [|reflexivity]. specialize (Hv eq_refl). unfold pbind, read_u16.
    rewrite (read_le_ok 2 payload (0 + 6 + 2)) by lia.
    unfold seek_cur. change (0 + 6 + 2)%nat with 8%nat. destruct (_ <? _)%Z eqn:Q; [lia|]. f_equal. f_equal. lia. }
  unfold parse_head. unfold pbind at 1. unfold read_u48. rewrite (read_le_ok 6) by lia. unfold pbind at 1. unfold read_u16 at 1.
  rewrite (read_le_ok 2 payload (0 + 6)) by lia. unfold pbind at 1. rewrite X. unfold pbind.
  rewrite !skipn_O. eexists. split; [|exact R].
  pose proof (runs_lenenc _ _ C (firstn (8 + extra_length v payload) payload) rest) as Y.
  rewrite <- E, firstn_skipn, firstn_length in Y. replace (Nat.min (8 + extra_length v payload) (length payload)) with (8 + extra_length v payload)%nat in Y by lia.
  rewrite Y. unfold ret. f_equal. f_equal. lia.
Qed.

(* ---- bitmaps ---- *)
Lemma bits_nth bs : forall i, nth_error (flat_map bits_le bs) i = option_map (fun b => N.testbit (b2n b) (N.of_nat (i mod 8))) (nth_error bs (i / 8)).
Proof.
  induction bs as [|b bs IH]; intros i; cbn [flat_map].
  - generalize (i / 8)%nat. intros k. now destruct i, k.
  - destruct (Nat.lt_ge_cases i 8) as [L|L].
    + rewrite Nat.div_small, Nat.mod_small by lia. cbn [nth_error option_map]. do 8 (destruct i as [|i]; [reflexivity|]). lia.
    + rewrite nth_error_app2 by (change (length (bits_le b)) with 8%nat; lia). change (length (bits_le b)) with 8%nat. rewrite IH.
      assert (D : (i / 8 = S ((i - 8) / 8))%nat). { replace i with (i - 8 + 1 * 8)%nat at 1 by lia. rewrite Nat.div_add by lia. lia. }
      assert (M : (i mod 8 = (i - 8) mod 8)%nat). { replace i with (i - 8 + 1 * 8)%nat at 1 by lia. now rewrite Nat.mod_add by lia. }
      rewrite D, M. reflexivity.
Qed.
Lemma firstn_nth {A} (l : list A) : forall k i, (i < k)%nat -> nth_error (firstn k l) i = nth_error l i.
Proof. induction l as [|x l IH]; intros [|k] [|i] H; try lia; try reflexivity. cbn [firstn nth_error]. apply IH. lia. Qed.
Lemma clear_iff n bs : clear_bits n bs <-> ~ In true (firstn (N.to_nat n) (flat_map bits_le bs)).
Proof.
  split.
  - intros H I. apply In_nth_error in I. destruct I as [i E].
    assert (Hi : (i < length (firstn (N.to_nat n) (flat_map bits_le bs)))%nat) by (apply nth_error_Some; congruence).
    rewrite firstn_length in Hi. rewrite firstn_nth, bits_nth in E by lia. destruct (nth_error bs (i / 8)) as [b|] eqn:B; [|discriminate].
    cbn [option_map] in E. rewrite (H i b) in E; [discriminate|lia|exact B].
  - intros H i b Hi B. destruct (N.testbit (b2n b) (N.of_nat (i mod 8))) eqn:T; [|reflexivity]. exfalso. apply H.
    apply (nth_error_In _ i). rewrite firstn_nth, bits_nth, B by lia. cbn [option_map]. now rewrite T.
Qed.
Lemma bitmap_inv n payload pos bits q : read_bitmap_le n payload pos = Ok (bits, q) -> (pos <= length payload)%nat ->
  exists bs rest, skipn pos payload = bs ++ rest /\ N.of_nat (length bs) = (n + 7) / 8 /\ n <= isize_max /\ q = (pos + length bs)%nat /\
    bits = firstn (N.to_nat n) (flat_map bits_le bs).
Proof.
  unfold read_bitmap_le, pbind at 1, lift, alloc at 1. destruct (N.ltb_spec isize_max n); [discriminate|]. unfold pbind.
  destruct (read_bytes ((n + 7) / 8) payload pos) as [[bs q1]|e| |] eqn:E; try discriminate. unfold ret. intros X L. inv X.
  revert E. unfold read_bytes, rbind, alloc. destruct (N.ltb_spec isize_max ((n + 7) / 8)); [discriminate|].
  destruct (N.ltb_spec (N.of_nat (length payload - pos)) ((n + 7) / 8)) as [|K]; [discriminate|]. intros X. inv X.
  revert K. generalize ((n + 7) / 8). intros k K.
  exists (firstn (N.to_nat k) (skipn pos payload)), (skipn (N.to_nat k) (skipn pos payload)).
  rewrite firstn_skipn, firstn_length, skipn_length. repeat split; try lia; assumption.
Qed.
Lemma bitmap_reads n payload pos bs rest : skipn pos payload = bs ++ rest -> N.of_nat (length bs) = (n + 7) / 8 -> n <= isize_max -> (pos <= length payload)%nat ->
  read_bitmap_le n payload pos = Ok (firstn (N.to_nat n) (flat_map bits_le bs), (pos + length bs)%nat).
Proof.
  intros E L M P. unfold read_bitmap_le, pbind at 1, lift, alloc at 1. destruct (N.ltb_spec isize_max n); [lia|]. unfold pbind, read_bytes, rbind, alloc.
  rewrite <- L. destruct (N.ltb_spec isize_max (N.of_nat (length bs))) as [K|K].
  { exfalso. assert (n + 7 < 8 * (isize_max + 1)) by (unfold isize_max in *; lia). assert ((n + 7) / 8 < isize_max + 1) by (apply N.div_lt_upper_bound; lia). lia. }
  assert (Z : (length payload - pos = length bs + length rest)%nat) by (rewrite <- skipn_length, E, app_length; reflexivity).
  destruct (N.ltb_spec (N.of_nat (length payload - pos)) (N.of_nat (length bs))); [lia|].
  unfold ret. rewrite E, Nat2N.id, firstn_app, firstn_all, Nat.sub_diag, firstn_O, app_nil_r. reflexivity.
Qed.

(* ---- a row of which nothing is present ---- *)
Lemma no_bits ps : ~ In true ps -> bits_number ps = 0.
Proof.
  intros H. unfold bits_number. induction ps as [|[|] ps IH]; cbn [filter length]; [reflexivity|exfalso; apply H; now left|].
  apply IH. intros I. apply H. now right.
Qed.
Lemma some_bits ps : In true ps -> bits_number ps <> 0.
Proof.
  intros H. unfold bits_number. induction ps as [|[|] ps IH]; [destruct H|cbn [filter length]; lia|]. cbn [filter]. apply IH. destruct H as [H|H]; [discriminate|exact H].
Qed.
Lemma empty_columns bl types : forall metas ps nulls buf pos, ~ In true ps ->
  parse_columns bl types metas ps nulls buf pos = if (length types <=? length ps)%nat then Ok (repeat None (length types), pos) else Panic.
Proof.
  induction types as [|ty types IH]; intros metas ps nulls buf pos H; cbn [parse_columns length repeat]; [reflexivity|].
  destruct ps as [|[|] ps]; [reflexivity|exfalso; apply H; now left|]. unfold pbind. rewrite IH by (intros I; apply H; now right).
  cbn [length Nat.leb]. destruct (length types <=? length ps)%nat; reflexivity.
Qed.
Lemma empty_row bl t ps buf pos : ~ In true ps -> (pos <= length buf)%nat ->
  parse_row bl t ps (bits_number ps) buf pos = if (length (tb_types t) <=? length ps)%nat then Ok (repeat None (length (tb_types t)), pos) else Panic.
Proof.
  intros H L. rewrite (no_bits _ H). unfold parse_row, pbind. rewrite (bitmap_reads 0 buf pos [] (skipn pos buf)); [|reflexivity|reflexivity|unfold isize_max; lia|exact L].
  cbn [length]. rewrite Nat.add_0_r. now apply empty_columns.
Qed.
Lemma pwhile_panic_or {A} (p : parser A) buf pos : p buf pos = Panic -> pwhile p buf pos <> Diverge.
Proof. intros E. unfold pwhile. cbn [pwhile_aux]. destruct (_ <? _)%nat; [|discriminate]. unfold pbind. rewrite E. discriminate. Qed.

(* ---- the loops over an empty row ---- *)
Lemma row_list_hang bl t ps buf pos : (pos <= length buf)%nat -> pwhile (parse_row bl t ps (bits_number ps)) buf pos = Diverge <->
  ~ In true ps /\ (length (tb_types t) <= length ps)%nat /\ (pos < length buf)%nat.
Proof.
  intros L. split.
  - intros H. destruct (true_dec ps) as [I|I].
    { exfalso. revert H. apply (pfin_row_list bl [(0, t)] 0 ps I). }
    split; [exact I|]. destruct (Nat.lt_ge_cases pos (length buf)) as [K|K].
    + split; [|exact K]. destruct (Nat.leb_spec (length (tb_types t)) (length ps)) as [M|M]; [exact M|exfalso].
      revert H. apply pwhile_panic_or. rewrite empty_row by assumption. destruct (Nat.leb_spec (length (tb_types t)) (length ps)); [lia|reflexivity].
    + exfalso. revert H. unfold pwhile. cbn [pwhile_aux]. destruct (Nat.ltb_spec pos (length buf)); [lia|discriminate].
  - intros (I & M & K). apply (pwhile_stuck _ _ _ (repeat None (length (tb_types t)))); [|exact K].
    rewrite empty_row by assumption. destruct (Nat.leb_spec (length (tb_types t)) (length ps)); [reflexivity|lia].
Qed.
Lemma update_list_hang bl t b a buf pos : (pos <= length buf)%nat -> length b = length a ->
  pwhile (x <- parse_row bl t b (bits_number b) ;; y <- parse_row bl t a (bits_number a) ;; ret (x, y)) buf pos = Diverge <->
  ~ In true b /\ ~ In true a /\ (length (tb_types t) <= length b)%nat /\ (pos < length buf)%nat.
Proof.
  intros L Hl. set (p := x <- parse_row bl t b (bits_number b) ;; _). split.
  - intros H. assert (I : ~ (In true b \/ In true a)).
    { intros I. revert H. apply (pfin_update_list bl [(0, t)] 0 b a I). }
    split; [tauto|]. split; [tauto|]. destruct (Nat.lt_ge_cases pos (length buf)) as [K|K].
    + split; [|exact K]. destruct (Nat.leb_spec (length (tb_types t)) (length b)) as [M|M]; [exact M|exfalso].
      revert H. apply pwhile_panic_or. unfold p, pbind. rewrite empty_row by tauto. destruct (Nat.leb_spec (length (tb_types t)) (length b)); [lia|reflexivity].
    + exfalso. revert H. unfold pwhile. cbn [pwhile_aux]. destruct (Nat.ltb_spec pos (length buf)); [lia|discriminate].
  - intros (I & J & M & K). apply (pwhile_stuck _ _ _ (repeat None (length (tb_types t)), repeat None (length (tb_types t)))); [|exact K].
    unfold p, pbind. rewrite !empty_row by assumption. destruct (Nat.leb_spec (length (tb_types t)) (length b)); [|lia].
    rewrite empty_row by assumption. rewrite <- Hl. destruct (Nat.leb_spec (length (tb_types t)) (length b)); [reflexivity|lia].
Qed.

Lemma announces_long v payload id n bs tail : announces v payload id n (bs ++ tail) -> tail <> [] -> v = 2 -> (10 <= length payload)%nat.
Proof.
  intros (_ & count & C & E) T _. apply lenenc_nonempty in C. apply (f_equal (@length byte)) in E. rewrite skipn_length, !app_length in E.
  destruct count; [congruence|]. destruct tail; [congruence|]. cbn [length] in E. lia.
Qed.
Lemma bits_length n bs : N.of_nat (length bs) = (n + 7) / 8 -> length (firstn (N.to_nat n) (flat_map bits_le bs)) = N.to_nat n.
Proof.
  intros H. assert (F : length (flat_map bits_le bs) = (8 * length bs)%nat).
  { clear. induction bs as [|x bs IH]; cbn [flat_map length]; [reflexivity|]. rewrite app_length, IH. change (length (bits_le x)) with 8%nat. lia. }
  rewrite firstn_length, F. assert (n <= 8 * ((n + 7) / 8)) by lia. lia.
Qed.

Lemma rows_hang bl ts v payload : parse_rows_event bl ts v payload 0%nat = Diverge <->
  exists id n bs tail t, announces v payload id n (bs ++ tail) /\ n <= 9223372036854775807 /\ N.of_nat (length bs) = (n + 7) / 8 /\
    clear_bits n bs /\ tables_get id ts = Some t /\ N.of_nat (length (tb_types t)) <= n /\ tail <> [].
Proof.
  split.
  - intros H. unfold parse_rows_event, pbind at 1 in H. pose proof (pfin_head v payload 0%nat) as X.
    destruct (parse_head v payload 0%nat) as [[[[id fl] n] pos]|e| |] eqn:E; try discriminate; [|congruence]. clear X.
    unfold pbind at 1 in H. pose proof (pfin_bitmap n payload pos) as X.
    destruct (read_bitmap_le n payload pos) as [[bits p1]|e| |] eqn:E2; try discriminate; [|congruence]. clear X.
    pose proof (head_announces _ _ _ _ _ _ E) as A. destruct (head_pieces _ _ _ _ _ _ E) as (hh & count & rest & EP & _ & _ & Hpos & _).
    assert (Lp : (pos <= length payload)%nat) by (rewrite EP, Hpos, !app_length; lia).
    destruct (bitmap_inv _ _ _ _ _ E2 Lp) as (bs & tail & Es & Hb & Hn & -> & ->). rewrite Es in A.
    assert (Lq : (length payload = pos + length bs + length tail)%nat) by (apply (f_equal (@length byte)) in Es; rewrite skipn_length, app_length in Es; lia).
    unfold pbind in H. unfold parse_row_list in H. destruct (tables_get id ts) as [t|] eqn:T; [|discriminate].
    set (ps := firstn (N.to_nat n) (flat_map bits_le bs)) in *.
    destruct (pwhile (parse_row bl t ps (bits_number ps)) payload (pos + length bs)%nat) as [[rows q]|e| |] eqn:W; try discriminate.
    apply row_list_hang in W; [|lia]. destruct W as (I & M & K). unfold ps in M. rewrite bits_length in M by exact Hb.
    exists id, n, bs, tail, t. split; [exact A|]. split; [exact Hn|]. split; [exact Hb|]. split; [now apply clear_iff|]. split; [exact T|]. split; [lia|].
    intros ->. cbn [length] in Lq. lia.
  - intros (id & n & bs & tail & t & A & Hn & Hb & Hc & T & M & Ne).
    destruct (announced_head _ _ _ _ _ (announces_long _ _ _ _ _ _ A Ne) A) as (fl & E & Er).
    set (pos := (length payload - length (bs ++ tail))%nat) in *. unfold parse_rows_event, pbind at 1. rewrite E.
    assert (Ln : (0 < length (bs ++ tail))%nat) by (rewrite app_length; destruct tail; [congruence|]; cbn [length]; lia).
    assert (Lq : (length payload = pos + length bs + length tail)%nat).
    { pose proof (f_equal (@length byte) Er) as L2. rewrite skipn_length in L2. rewrite app_length in *. lia. }
    unfold pbind at 1. rewrite (bitmap_reads n payload pos bs tail); [|now rewrite <- Er|exact Hb|exact Hn|lia].
    unfold pbind, parse_row_list. rewrite T.
    assert (W : pwhile (parse_row bl t (firstn (N.to_nat n) (flat_map bits_le bs)) (bits_number (firstn (N.to_nat n) (flat_map bits_le bs)))) payload (pos + length bs)%nat = Diverge).
    { apply row_list_hang; [lia|]. split; [now apply clear_iff|]. rewrite bits_length by exact Hb. split; [lia|]. destruct tail; [congruence|]. cbn [length] in *. lia. }
    rewrite W. reflexivity.
Qed.
Lemma updates_hang bl ts v payload : parse_update_event bl ts v payload 0%nat = Diverge <->
  exists id n b1 b2 tail t, announces v payload id n ((b1 ++ b2) ++ tail) /\ n <= 9223372036854775807 /\ N.of_nat (length b1) = (n + 7) / 8 /\
    N.of_nat (length b2) = (n + 7) / 8 /\ clear_bits n b1 /\ clear_bits n b2 /\ tables_get id ts = Some t /\ N.of_nat (length (tb_types t)) <= n /\ tail <> [].
Proof.
  split.
  - intros H. unfold parse_update_event, pbind at 1 in H. pose proof (pfin_head v payload 0%nat) as X.
    destruct (parse_head v payload 0%nat) as [[[[id fl] n] pos]|e| |] eqn:E; try discriminate; [|congruence]. clear X.
    unfold pbind at 1 in H. pose proof (pfin_bitmap n payload pos) as X.
    destruct (read_bitmap_le n payload pos) as [[bits p1]|e| |] eqn:E2; try discriminate; [|congruence]. clear X.
    unfold pbind at 1 in H. pose proof (pfin_bitmap n payload p1) as X.
    destruct (read_bitmap_le n payload p1) as [[bits2 p2]|e| |] eqn:E3; try discriminate; [|congruence]. clear X.
    pose proof (head_announces _ _ _ _ _ _ E) as A. destruct (head_pieces _ _ _ _ _ _ E) as (hh & count & rest & EP & _ & _ & Hpos & _).
    assert (Lp : (pos <= length payload)%nat) by (rewrite EP, Hpos, !app_length; lia).
    destruct (bitmap_inv _ _ _ _ _ E2 Lp) as (b1 & tail1 & Es & Hb & Hn & -> & ->). rewrite Es in A.
    assert (Lq : (length payload = pos + length b1 + length tail1)%nat) by (apply (f_equal (@length byte)) in Es; rewrite skipn_length, app_length in Es; lia).
    destruct (bitmap_inv _ _ _ _ _ E3) as (b2 & tail & Es2 & Hb2 & _ & -> & ->); [lia|].
    assert (tail1 = b2 ++ tail) as ->.
    { rewrite skipn_plus, Es, skipn_app, skipn_all, Nat.sub_diag in Es2. exact Es2. }
    rewrite app_length in Lq. rewrite app_assoc in A.
    unfold pbind at 1 in H. unfold parse_update_row_list in H. destruct (tables_get id ts) as [t|] eqn:T; [|discriminate].
    match type of H with match ?w with _ => _ end = _ => destruct w as [[rows q]|e| |] eqn:W; try discriminate end.
    apply update_list_hang in W; [|lia|now rewrite !bits_length]. destruct W as (I & J & M & K). rewrite bits_length in M by exact Hb.
    exists id, n, b1, b2, tail, t. split; [exact A|]. split; [exact Hn|]. split; [exact Hb|]. split; [exact Hb2|]. split; [now apply clear_iff|].
    split; [now apply clear_iff|]. split; [exact T|]. split; [lia|]. intros ->. cbn [length] in Lq. lia.
  - intros (id & n & b1 & b2 & tail & t & A & Hn & Hb & Hb2 & Hc & Hc2 & T & M & Ne).
    destruct (announced_head _ _ _ _ _ (announces_long _ _ _ _ _ _ A Ne) A) as (fl & E & Er). rewrite <- app_assoc in E, Er.
    set (pos := (length payload - length (b1 ++ b2 ++ tail))%nat) in *. unfold parse_update_event, pbind at 1. rewrite E.
    assert (Ln : (0 < length tail)%nat) by (destruct tail; [congruence|]; cbn [length]; lia).
    assert (Lq : (length payload = pos + length b1 + length b2 + length tail)%nat).
    { pose proof (f_equal (@length byte) Er) as L2. rewrite skipn_length in L2. rewrite !app_length in *. lia. }
    unfold pbind at 1. rewrite (bitmap_reads n payload pos b1 (b2 ++ tail)); [|now rewrite <- Er|exact Hb|exact Hn|lia].
    unfold pbind at 1. rewrite (bitmap_reads n payload (pos + length b1)%nat b2 tail); [|rewrite skipn_plus, <- Er, skipn_app, skipn_all, Nat.sub_diag; reflexivity|exact Hb2|exact Hn|lia].
    unfold pbind at 1, parse_update_row_list. rewrite T.
    match goal with |- match ?w with _ => _ end = _ => assert (W : w = Diverge) end.
    { apply update_list_hang; [lia|now rewrite !bits_length|]. split; [now apply clear_iff|]. split; [now apply clear_iff|]. rewrite bits_length by exact Hb. split; lia. }
    rewrite W. reflexivity.
Qed.

Lemma pmap_diverge_iff {A B} (f : A -> B) p buf pos : pmap f p buf pos = Diverge <-> p buf pos = Diverge.
Proof. unfold pmap, pbind. destruct (p buf pos) as [[a q]|e| |]; split; try discriminate; reflexivity. Qed.
Lemma hangs_rows ts ty payload v bl : rows_version ty = Some v -> has ty [24; 31] = false ->
  (hangs ts ty payload <-> parse_rows_event bl ts v payload 0%nat = Diverge).
Proof.
  intros Hv Hu. rewrite rows_hang. split.
  - intros (v' & id & n & maps & tail & t & Hv' & A & Hn & Hl & F & T & M & Ne). rewrite Hv in Hv'. injection Hv' as <-. rewrite Hu in Hl.
    destruct maps as [|bs [|? ?]]; try discriminate Hl. inversion F as [|? ? [F1 F2] ?]; subst. cbn [concat] in A. rewrite app_nil_r in A.
    exists id, n, bs, tail, t. repeat (split; [assumption|]). exact Ne.
  - intros (id & n & bs & tail & t & A & Hn & Hb & Hc & T & M & Ne). exists v, id, n, [bs], tail, t. cbn [concat]. rewrite app_nil_r, Hu.
    split; [exact Hv|]. split; [exact A|]. split; [exact Hn|]. split; [reflexivity|]. split; [apply Forall_cons; [now split|apply Forall_nil]|]. repeat (split; [assumption|]). exact Ne.
Qed.
Lemma hangs_updates ts ty payload v bl : rows_version ty = Some v -> has ty [24; 31] = true ->
  (hangs ts ty payload <-> parse_update_event bl ts v payload 0%nat = Diverge).
Proof.
  intros Hv Hu. rewrite updates_hang. split.
  - intros (v' & id & n & maps & tail & t & Hv' & A & Hn & Hl & F & T & M & Ne). rewrite Hv in Hv'. injection Hv' as <-. rewrite Hu in Hl.
    destruct maps as [|b1 [|b2 [|? ?]]]; try discriminate Hl. inversion F as [|? ? [F1 F2] F']; subst. inversion F' as [|? ? [F3 F4] ?]; subst. cbn [concat] in A. rewrite app_nil_r in A.
    exists id, n, b1, b2, tail, t. repeat (split; [assumption|]). exact Ne.
  - intros (id & n & b1 & b2 & tail & t & A & Hn & Hb & Hb2 & Hc & Hc2 & T & M & Ne). exists v, id, n, [b1; b2], tail, t. cbn [concat]. rewrite app_nil_r, Hu.
    split; [exact Hv|]. split; [exact A|]. split; [exact Hn|]. split; [reflexivity|].
    split; [apply Forall_cons; [now split|apply Forall_cons; [now split|apply Forall_nil]]|]. repeat (split; [assumption|]). exact Ne.
Qed.
Lemma body_hangs bl ts h payload : event_body bl ts h payload 0%nat = Diverge <-> hangs ts (h_type h) payload.
Proof.
  assert (Nv : hangs ts (h_type h) payload -> rows_version (h_type h) <> None) by (intros (v & ? & ? & ? & ? & ? & H & _); congruence).
  split.
  - intros D. pose proof (body_diverge _ _ _ _ D) as (v & _ & _ & _ & Hv & _). revert D. unfold event_body. cbv zeta.
    revert Hv Nv. generalize (h_type h) as ty. intros ty Hv Nv. unfold rows_version, has in Hv. cbn [existsb] in Hv. rewrite !orb_false_r in Hv.
    assert (C : (ty = 23 \/ ty = 24 \/ ty = 25) \/ ty = 30 \/ ty = 31 \/ ty = 32).
    { repeat match type of Hv with context [?a =? ?b] => destruct (N.eqb_spec a b); [lia|] end. discriminate Hv. }
    clear Hv. repeat destruct C as [C|C]; subst ty; cbn [N.eqb Pos.eqb]; intros D; apply pmap_diverge_iff in D.
    all: first [eapply hangs_rows; [reflexivity|reflexivity|exact D] | eapply hangs_updates; [reflexivity|reflexivity|exact D]].
  - intros Hh. pose proof (Nv Hh) as Hv. revert Hh. unfold event_body. cbv zeta. clear Nv.
    revert Hv. generalize (h_type h) as ty. intros ty Hv. unfold rows_version, has in Hv. cbn [existsb] in Hv. rewrite !orb_false_r in Hv.
    assert (C : (ty = 23 \/ ty = 24 \/ ty = 25) \/ ty = 30 \/ ty = 31 \/ ty = 32).
    { repeat match type of Hv with context [?a =? ?b] => destruct (N.eqb_spec a b); [lia|] end. now elim Hv. }
    clear Hv. repeat destruct C as [C|C]; subst ty; cbn [N.eqb Pos.eqb]; intros D; apply pmap_diverge_iff.
    all: first [eapply hangs_rows; [ | |exact D]; reflexivity | eapply hangs_updates; [ | |exact D]; reflexivity].
Qed.

(* ---- every field has bytes of its own ---- *)
Lemma head_split v payload id fl n pos : parse_head v payload 0%nat = Ok ((id, fl, n), pos) -> (v = 2 -> (2 <= extra_length v payload)%nat) ->
  exists fixed extra count rest, payload = fixed ++ extra ++ count ++ rest /\ length fixed = 8%nat /\ length extra = extra_length v payload /\
    (v = 2 -> le_dec (firstn 2 extra) = N.of_nat (length extra)) /\ lenenc n count /\ pos = length (fixed ++ extra ++ count) /\
    id = le_dec (firstn 6 fixed) /\ fl = le_dec (skipn 6 fixed).
Proof.
  intros E Hx. destruct (head_pieces _ _ _ _ _ _ E) as (h & count & rest & EP & Lh & C & Hpos & Hid).
  exists (firstn 8 h), (skipn 8 h), count, rest.
  assert (L8 : length (firstn 8 h) = 8%nat) by (rewrite firstn_length; lia).
  assert (H8 : firstn 8 payload = firstn 8 h). { rewrite EP, firstn_app. replace (8 - length h)%nat with 0%nat by lia. now rewrite firstn_O, app_nil_r. }
  split; [now rewrite app_assoc, firstn_skipn|]. split; [exact L8|]. split; [rewrite skipn_length; lia|]. split; [|split; [exact C|split; [|split]]].
  - intros Hv. specialize (Hx Hv). subst v. rewrite skipn_length, Lh. replace (8 + extra_length 2 payload - 8)%nat with (extra_length 2 payload) by lia.
    unfold extra_length in *. change (2 =? 2) with true in *. cbv iota in *. rewrite N2Nat.id. f_equal.
    rewrite EP, skipn_app. replace (8 - length h)%nat with 0%nat by lia. rewrite skipn_O, firstn_app, skipn_length. replace (2 - (length h - 8))%nat with 0%nat by lia.
    now rewrite firstn_O, app_nil_r.
  - rewrite app_assoc, firstn_skipn. exact Hpos.
  - rewrite Hid, <- H8, firstn_firstn. reflexivity.
  - revert E. unfold parse_head, pbind at 1. destruct (read_u48 payload 0%nat) as [[i p1]|e| |] eqn:E1; try discriminate.
    apply read_le_inv in E1. destruct E1 as [E1 ->]. unfold pbind at 1. destruct (read_u16 payload (0 + 6)%nat) as [[f p2]|e| |] eqn:E2; try discriminate.
    apply read_le_inv in E2. destruct E2 as [E2 ->]. unfold pbind at 1. match goal with |- match ?w with _ => _ end = _ -> _ => destruct w as [[u p3]|e| |]; try discriminate end.
    unfold pbind. destruct (read_len_enc_num payload p3) as [[c p4]|e| |]; try discriminate. unfold ret. intros X. inv X.
    rewrite <- H8. change 8%nat with (6 + 2)%nat. change (0 + 6)%nat with 6%nat. rewrite firstn_skipn_comm. reflexivity.
Qed.
Lemma shown_bits n bs : forall i, (i < N.to_nat n)%nat ->
  nth_error (firstn (N.to_nat n) (flat_map bits_le bs)) i = option_map (fun b => N.testbit (b2n b) (N.of_nat (i mod 8))) (nth_error bs (i / 8)).
Proof. intros i H. rewrite firstn_nth by exact H. apply bits_nth. Qed.
Lemma rows_split bl ts v payload e q : parse_rows_event bl ts v payload 0%nat = Ok (e, q) -> (v = 2 -> (2 <= extra_length v payload)%nat) ->
  exists fixed extra count bits segs t, payload = fixed ++ extra ++ count ++ bits ++ concat segs /\
    length fixed = 8%nat /\ re_table e = le_dec (firstn 6 fixed) /\ re_flags e = le_dec (skipn 6 fixed) /\
    length extra = extra_length v payload /\ (v = 2 -> le_dec (firstn 2 extra) = N.of_nat (length extra)) /\
    lenenc (re_columns e) count /\
    N.of_nat (length bits) = (re_columns e + 7) / 8 /\ re_present e = firstn (N.to_nat (re_columns e)) (flat_map bits_le bits) /\
    tables_get (re_table e) ts = Some t /\
    Forall2 (fun seg r => seg <> [] /\ runs (parse_row bl t (re_present e) (bits_number (re_present e))) seg r) segs (re_rows e).
Proof.
  intros H Hx. unfold parse_rows_event, pbind at 1 in H.
  destruct (parse_head v payload 0%nat) as [[[[id fl] n] pos]|er| |] eqn:E; try discriminate.
  destruct (head_split _ _ _ _ _ _ E Hx) as (fixed & extra & count & rest & EP & L1 & L2 & Lx & C & Hpos & Hid & Hfl).
  unfold pbind at 1 in H. destruct (read_bitmap_le n payload pos) as [[bm p1]|er| |] eqn:E2; try discriminate.
  assert (Lp : (pos <= length payload)%nat) by (rewrite EP, Hpos, !app_length; lia).
  destruct (bitmap_inv _ _ _ _ _ E2 Lp) as (bs & tail & Es & Hb & Hn & Hp1 & Hbm).
  assert (Er : skipn pos payload = rest).
  { rewrite EP, Hpos. replace (fixed ++ extra ++ count ++ rest) with ((fixed ++ extra ++ count) ++ rest) by now rewrite <- !app_assoc.
    rewrite skipn_app, skipn_all, Nat.sub_diag. reflexivity. }
  assert (Lq : (length payload = pos + length bs + length tail)%nat) by (apply (f_equal (@length byte)) in Es; rewrite skipn_length, app_length in Es; lia).
  unfold pbind in H. unfold parse_row_list in H. destruct (tables_get id ts) as [t|] eqn:T; [|discriminate].
  destruct (pwhile (parse_row bl t bm (bits_number bm)) payload p1) as [[rows q1]|er| |] eqn:W; try discriminate. unfold ret in H.
  assert (He : e = RowsEvent id fl n bm rows) by congruence. subst e. clear H. cbn [re_table re_flags re_columns re_present re_rows].
  destruct (pwhile_nonempty _ (exactp_row bl t bm (bits_number bm)) _ _ _ _ W) as (segs & S & F); [lia|].
  exists fixed, extra, count, bs, segs, t. split.
  { rewrite EP at 1. rewrite <- Er, Es. do 4 f_equal. rewrite <- S, Hp1, skipn_plus, Es, skipn_app, skipn_all, Nat.sub_diag. reflexivity. }
  repeat (split; [assumption|]). exact F.
Qed.
Lemma exactp_pair bl t b a : exactp (x <- parse_row bl t b (bits_number b) ;; y <- parse_row bl t a (bits_number a) ;; ret (x, y)).
Proof. exb; [apply exactp_row|]. exb; [apply exactp_row|ex]. Qed.
Lemma pair_split bl t b a seg x y : runs (x <- parse_row bl t b (bits_number b) ;; y <- parse_row bl t a (bits_number a) ;; ret (x, y)) seg (x, y) ->
  exists s1 s2, seg = s1 ++ s2 /\ runs (parse_row bl t b (bits_number b)) s1 x /\ runs (parse_row bl t a (bits_number a)) s2 y.
Proof.
  intros R. specialize (R [] []). cbn [app length] in R. rewrite app_nil_r in R. unfold pbind at 1 in R.
  destruct (parse_row bl t b (bits_number b) seg 0%nat) as [[x' q]|e| |] eqn:P; try discriminate.
  destruct (exactp_row _ _ _ _ _ _ _ _ P) as (pre & s1 & post & Eseg & L & Hq & R1); [lia|]. destruct pre; [|discriminate L]. cbn [app length] in *.
  unfold pbind in R. destruct (parse_row bl t a (bits_number a) seg q) as [[y' q2]|e| |] eqn:P2; try discriminate.
  destruct (exactp_row _ _ _ _ _ _ _ _ P2) as (pre2 & s2 & post2 & Eseg2 & L2 & Hq2 & R2); [subst q; rewrite Eseg, app_length; lia|].
  unfold ret in R. injection R as Hx Hy Hq3. subst x' y'.
  assert (X : pre2 = s1 /\ s2 ++ post2 = post).
  { rewrite Eseg in Eseg2. apply app_cut in Eseg2; [intuition congruence|lia]. }
  destruct X as [-> <-]. assert (post2 = []) as ->.
  { assert (Z : length seg = (length s1 + length s2 + length post2)%nat) by (rewrite Eseg2, !app_length; lia). destruct post2; [reflexivity|]. cbn [length] in Z. lia. }
  rewrite app_nil_r in Eseg2. exists s1, s2. auto.
Qed.
Lemma updates_split bl ts v payload e q : parse_update_event bl ts v payload 0%nat = Ok (e, q) -> (v = 2 -> (2 <= extra_length v payload)%nat) ->
  exists fixed extra count bits bits2 segs t, payload = fixed ++ extra ++ count ++ bits ++ bits2 ++ concat (map (fun s => fst s ++ snd s) segs) /\
    length fixed = 8%nat /\ ue_table e = le_dec (firstn 6 fixed) /\ ue_flags e = le_dec (skipn 6 fixed) /\
    length extra = extra_length v payload /\ (v = 2 -> le_dec (firstn 2 extra) = N.of_nat (length extra)) /\
    lenenc (ue_columns e) count /\
    N.of_nat (length bits) = (ue_columns e + 7) / 8 /\ ue_before e = firstn (N.to_nat (ue_columns e)) (flat_map bits_le bits) /\
    N.of_nat (length bits2) = (ue_columns e + 7) / 8 /\ ue_after e = firstn (N.to_nat (ue_columns e)) (flat_map bits_le bits2) /\
    tables_get (ue_table e) ts = Some t /\
    Forall2 (fun s r => fst s ++ snd s <> [] /\ runs (parse_row bl t (ue_before e) (bits_number (ue_before e))) (fst s) (fst r) /\
      runs (parse_row bl t (ue_after e) (bits_number (ue_after e))) (snd s) (snd r)) segs (ue_rows e).
Proof.
  intros H Hx. unfold parse_update_event, pbind at 1 in H.
  destruct (parse_head v payload 0%nat) as [[[[id fl] n] pos]|er| |] eqn:E; try discriminate.
  destruct (head_split _ _ _ _ _ _ E Hx) as (fixed & extra & count & rest & EP & L1 & L2 & Lx & C & Hpos & Hid & Hfl).
  unfold pbind at 1 in H. destruct (read_bitmap_le n payload pos) as [[bm p1]|er| |] eqn:E2; try discriminate.
  unfold pbind at 1 in H. destruct (read_bitmap_le n payload p1) as [[bm2 p2]|er| |] eqn:E3; try discriminate.
  assert (Lp : (pos <= length payload)%nat) by (rewrite EP, Hpos, !app_length; lia).
  destruct (bitmap_inv _ _ _ _ _ E2 Lp) as (bs & tail1 & Es & Hb & Hn & Hp1 & Hbm).
  assert (Er : skipn pos payload = rest).
  { rewrite EP, Hpos. replace (fixed ++ extra ++ count ++ rest) with ((fixed ++ extra ++ count) ++ rest) by now rewrite <- !app_assoc.
    rewrite skipn_app, skipn_all, Nat.sub_diag. reflexivity. }
  assert (Lq : (length payload = pos + length bs + length tail1)%nat) by (apply (f_equal (@length byte)) in Es; rewrite skipn_length, app_length in Es; lia).
  destruct (bitmap_inv _ _ _ _ _ E3) as (bs2 & tail & Es2 & Hb2 & _ & Hp2 & Hbm2); [lia|].
  assert (Et : tail1 = bs2 ++ tail). { rewrite Hp1, skipn_plus, Es, skipn_app, skipn_all, Nat.sub_diag in Es2. exact Es2. }
  assert (Lr : (length tail1 = length bs2 + length tail)%nat) by (rewrite Et, app_length; reflexivity).
  unfold pbind at 1 in H. unfold parse_update_row_list in H. destruct (tables_get id ts) as [t|] eqn:T; [|discriminate].
  match type of H with match ?w with _ => _ end = _ => destruct w as [[rows q1]|er| |] eqn:W; try discriminate end. unfold ret in H.
  assert (He : e = UpdateEvent id fl n bm bm2 rows) by congruence. subst e. clear H. cbn [ue_table ue_flags ue_columns ue_before ue_after ue_rows].
  destruct (pwhile_nonempty _ (exactp_pair bl t bm bm2) _ _ _ _ W) as (segs & S & F); [lia|].
  assert (F' : exists pairs, concat segs = concat (map (fun s => fst s ++ snd s) pairs) /\
    Forall2 (fun s r => fst s ++ snd s <> [] /\ runs (parse_row bl t bm (bits_number bm)) (fst s) (fst r) /\
      runs (parse_row bl t bm2 (bits_number bm2)) (snd s) (snd r)) pairs rows).
  { clear S W. induction F as [|seg [x y] segs rows [Ne R] F IH]; [exists []; split; [reflexivity|constructor]|].
    destruct IH as (pairs & Ep & Fp). destruct (pair_split _ _ _ _ _ _ _ R) as (s1 & s2 & -> & R1 & R2).
    exists ((s1, s2) :: pairs). cbn [map concat fst snd]. rewrite <- Ep. split; [reflexivity|]. constructor; [auto|exact Fp]. }
  destruct F' as (pairs & Ep & Fp).
  exists fixed, extra, count, bs, bs2, pairs, t. split.
  { rewrite EP at 1. rewrite <- Er, Es, Et. do 5 f_equal. rewrite <- Ep, <- S, Hp2, skipn_plus, Es2, skipn_app, skipn_all, Nat.sub_diag. reflexivity. }
  repeat (split; [assumption|]). exact Fp.
Qed.
