(* Exactly which table maps make the decoder panic. *)
From Verif Require Import Base.Tac Base.Bytes Base.Text Base.Res Base.Str Base.Parse Base.Loop Model.Codec Model.Values
  Model.TableMap Spec.CodecSpec Spec.EventSpec Spec.CellSpec Spec.TableSpec Spec.SafeSpec Spec.StopSpec
  Proofs.CodecProofs Proofs.EventSafe Proofs.RowProofs Proofs.DecodeSafe Proofs.OnceProofs Proofs.ForwardProofs Proofs.StopProofs.
Local Open Scope N_scope.

(* ---- skipping and reading panic alike when a byte is read next ---- *)
Definition strict {A} (p : parser A) : Prop := forall buf pos, (length buf < pos)%nat -> p buf pos = Err (EIo UnexpectedEof).
Lemma strict_u8 {A} (f : N -> parser A) : strict (pbind read_u8 f).
Proof. intros buf pos H. unfold pbind, read_u8. now rewrite read_short by lia. Qed.
Lemma strict_lenenc {A} (f : N -> parser A) : strict (pbind read_len_enc_num f).
Proof. intros buf pos H. unfold pbind at 1. unfold read_len_enc_num. now rewrite strict_u8. Qed.
Lemma seek_bytes {A} k (p : parser A) buf pos : (0 < k <= 8)%nat -> strict p -> (seek_cur (Z.of_nat k) ;;; p) buf pos = (read_bytes (N.of_nat k) ;;; p) buf pos.
Proof.
  intros K H. unfold pbind. rewrite seek_here by lia. unfold read_bytes. rewrite alloc_ok by (unfold isize_max; lia). cbn [rbind].
  destruct (N.ltb_spec (N.of_nat (length buf - pos)) (N.of_nat k)); [rewrite H by lia; reflexivity|]. f_equal. lia.
Qed.

(* ---- up to the column count ---- *)
Definition start : parser N :=
  read_u48 ;;; read_bytes 2 ;;; dl <- read_u8 ;; read_string dl ;;; read_bytes 1 ;;; tl <- read_u8 ;; read_string tl ;;; read_bytes 1 ;;; read_len_enc_num.
Lemma exactp_start : exactp start.
Proof. unfold start. exb; [ex|]. exb; [ex|]. exb; [ex|]. exb; [ex|]. exb; [ex|]. exb; [ex|]. exb; [ex|]. exb; [ex|]. apply exactp_lenenc. Qed.
Lemma small_bytes n : n <= 255 -> psafe (read_bytes n). Proof. intros H. apply psafe_read_bytes. unfold isize_max. lia. Qed.
Lemma psafe_start : psafe start.
Proof.
  unfold start. apply psafe_bind; [apply psafe_le; lia|intros]. apply psafe_bind; [apply small_bytes; lia|intros]. psv 1%nat.
  apply psafe_bind; [apply psafe_string; change (256 ^ N.of_nat 1) with 256 in *; unfold isize_max; lia|intros].
  apply psafe_bind; [apply small_bytes; lia|intros]. psv 1%nat. apply psafe_bind; [apply psafe_string; change (256 ^ N.of_nat 1) with 256 in *; unfold isize_max; lia|intros].
  apply psafe_bind; [apply small_bytes; lia|intros]. apply psafe_lenenc.
Qed.
Lemma is_string dl s : (exists t, runs (read_string (b2n dl)) s t) <-> N.of_nat (length s) = b2n dl /\ is_text s.
Proof. pose proof (takes_string (b2n dl) s) as T. cbv beta in T. rewrite T. pose proof (b2n_lt dl). unfold isize_max. intuition lia. Qed.
Ltac exall := intros; repeat first [apply exactp_lenenc|ex|exb].
Ltac cut R H := let s1 := fresh "s" in let s2 := fresh "r" in let a := fresh "v" in
  apply runs_bind_iff in R; [destruct R as (s1 & s2 & a & -> & H & R)|solve [exall]..].
Lemma one_byte {A} (s : list A) : N.of_nat (length s) = 1 -> exists x, s = [x].
Proof. destruct s as [|x [|y s]]; cbn [length]; try lia. intros _. now exists x. Qed.
Lemma runs_start n s : runs start s n <-> table_start n s.
Proof.
  unfold start, table_start. split.
  - intros R. cut R R1. cut R R2. cut R R3. cut R R4. cut R R5. cut R R6. cut R R7. cut R R8. apply runs_le_iff in R1; [|lia]. apply runs_bytes_iff in R2, R5, R8. apply u8_byte in R3, R6.
    apply runs_lenenc_iff in R. destruct R3 as (dl & -> & ->), R6 as (tl & -> & ->). assert (R4' := conj R4 R4). destruct R4' as [R4' _].
    assert (S1 := proj1 (is_string dl _) (ex_intro _ _ R4)). assert (S2 := proj1 (is_string tl _) (ex_intro _ _ R7)).
    destruct R5 as (_ & R5 & _), R8 as (_ & R8 & _), R2 as (_ & R2 & _). apply one_byte in R5, R8. destruct R5 as (x & ->), R8 as (y & ->).
    do 9 eexists. split; [reflexivity|]. destruct S1, S2. repeat split; try eassumption; try lia.
  - intros (id & fl & dl & db & x & tl & nm & y & c & -> & L1 & L2 & L3 & T3 & L4 & T4 & C).
    destruct (proj2 (is_string dl db) (conj L3 T3)) as (t1 & S1). destruct (proj2 (is_string tl nm) (conj L4 T4)) as (t2 & S2).
    eapply runs_bind; [apply (runs_le_iff 6); [lia|split; [exact L1|reflexivity]]|]. eapply runs_bind; [apply runs_bytes_iff; split; [reflexivity|]; unfold isize_max; lia|].
    eapply runs_bind; [apply u8_byte; now exists dl|]. eapply runs_bind; [exact S1|]. eapply runs_bind; [apply runs_bytes_iff; split; [reflexivity|]; unfold isize_max; cbn [length]; lia|].
    eapply runs_bind; [apply u8_byte; now exists tl|]. eapply runs_bind; [exact S2|]. eapply runs_bind; [apply runs_bytes_iff; split; [reflexivity|]; unfold isize_max; cbn [length]; lia|].
    now apply runs_lenenc.
Qed.

(* ---- the columns ---- *)
Lemma exactp_column_meta t : exactp (column_meta t).
Proof. unfold column_meta. exb; [ex|]. destruct a; ex. Qed.
Lemma exactp_columns_meta types : exactp (columns_meta types).
Proof. induction types as [|t types IH]; cbn [columns_meta]; [ex|]. exb; [apply exactp_column_meta|]. exb; [exact IH|ex]. Qed.
Lemma takes_le k : (k <= 8)%nat -> takes (read_le k) (fun s => length s = k).
Proof. intros H s. split; [intros (v & R); apply runs_le_iff in R; tauto|]. intros L. exists (le_dec s). now apply runs_le_iff. Qed.
Lemma takes_be k : (k <= 8)%nat -> takes (read_be k) (fun s => length s = k).
Proof. intros H s. split; [intros (v & R); apply runs_be_iff in R; tauto|]. intros L. exists (be_dec s). now apply runs_be_iff. Qed.
Lemma takes_ret {A} (a : A) : takes (ret a) (fun s => length s = 0%nat).
Proof. intros s. split; [intros (v & R); apply runs_ret_iff in R; now destruct R as [-> _]|]. intros L. exists a. destruct s; [apply runs_ret|discriminate]. Qed.
Lemma takes_column_meta t : takes (column_meta t) (fun s => In t known_types /\ length s = meta_size t).
Proof.
  intros s. destruct (coltype_from_code t) as [ct|e| |] eqn:E.
  2: { split; [intros (v & R); apply runs_here in R; unfold column_meta in R; rewrite E in R; discriminate|]. intros [K _]. destruct (known_coltype t K) as (ct & K2 & _). congruence. }
  2, 3: exfalso; revert E; unfold coltype_from_code; destruct (find _ _) as [[? ?]|]; discriminate.
  pose proof (coltype_is_known t ct E) as K.
  assert (G : (exists v, runs (column_meta t) s v) <-> length s = meta_size t); [|tauto].
  assert (Q : forall p, (forall buf pos, column_meta t buf pos = p buf pos) -> forall k, takes p (fun s => length s = k) -> k = meta_size t -> (exists v, runs (column_meta t) s v) <-> length s = meta_size t).
  { intros p Ep k Tk <-. rewrite <- (Tk s). split; intros (v & R); exists v; intros pre post; [rewrite <- Ep|rewrite Ep]; apply R. }
  unfold known_types in K. cbn [In] in K.
  repeat (destruct K as [K|K]; [subst t; injection E as <-; first
    [eapply Q; [intros buf pos; reflexivity|apply (takes_ret 0)|reflexivity]
    |eapply Q; [intros buf pos; reflexivity|apply (takes_le 1); lia|reflexivity]
    |eapply Q; [intros buf pos; reflexivity|apply (takes_le 2); lia|reflexivity]
    |eapply Q; [intros buf pos; reflexivity|apply (takes_be 2); lia|reflexivity]]|]). contradiction.
Qed.
Lemma takes_columns_meta types : takes (columns_meta types) (fun s => Forall (fun t => In t known_types) types /\ length s = list_sum (map meta_size types)).
Proof.
  induction types as [|t types IH]; cbn [columns_meta map list_sum fold_right].
  - eapply takes_conv; [|apply takes_ret]. intros s. cbv beta. intuition.
  - eapply takes_conv; [|apply takes_bind; [apply exactp_column_meta|intros; exb; [apply exactp_columns_meta|ex]|intros a; apply takes_bind; [apply exactp_columns_meta|intros; ex|intros; apply takes_ret]]].
    intros s. cbv beta. split.
    + intros (s1 & s2 & a & -> & R1 & s3 & s4 & b & -> & R2 & L). destruct s4; [|discriminate]. rewrite app_nil_r.
      destruct (proj1 (takes_column_meta t s1) (ex_intro _ _ R1)) as [K1 L1]. destruct (proj1 (IH s3) (ex_intro _ _ R2)) as [K2 L2].
      split; [now constructor|]. rewrite app_length. unfold list_sum in L2. lia.
    + intros [K L]. inversion K as [|? ? K1 K2]; subst. assert (L1 : length (firstn (meta_size t) s) = meta_size t) by (rewrite firstn_length; unfold list_sum in L; lia).
      destruct (proj2 (takes_column_meta t (firstn (meta_size t) s)) (conj K1 L1)) as (a & R1).
      assert (L2 : length (skipn (meta_size t) s) = list_sum (map meta_size types)) by (rewrite skipn_length; unfold list_sum in *; lia).
      destruct (proj2 (IH (skipn (meta_size t) s)) (conj K2 L2)) as (b & R2). exists (firstn (meta_size t) s), (skipn (meta_size t) s), a. split; [symmetry; apply firstn_skipn|]. split; [exact R1|].
      exists (skipn (meta_size t) s), [], b. rewrite app_nil_r. auto.
Qed.
Lemma takes_bitmap n : takes (read_bitmap_le n) (fun s => N.of_nat (length s) = (n + 7) / 8 /\ n <= isize_max).
Proof.
  intros s. unfold read_bitmap_le. split.
  - intros (v & R). apply runs_bind_iff in R; [|ex|intros; exb; ex]. destruct R as (s1 & s2 & u & -> & R1 & R). apply runs_bind_iff in R; [|ex|intros; ex].
    destruct R as (s3 & s4 & bs & -> & R2 & R3). apply runs_lift_iff in R1. apply runs_bytes_iff in R2. apply runs_ret_iff in R3. destruct R1 as [-> A], R3 as [-> _], R2 as (_ & L & _).
    cbn [app]. rewrite app_nil_r. split; [exact L|]. unfold alloc in A. destruct (N.ltb_spec isize_max n); [discriminate|assumption].
  - intros [L M]. eexists. apply runs_bind_iff; [ex|intros; exb; ex|]. exists [], s, tt. split; [reflexivity|]. split; [apply runs_lift_iff; split; [reflexivity|now apply alloc_ok]|].
    apply runs_bind_iff; [ex|intros; ex|]. exists s, [], s. rewrite app_nil_r. split; [reflexivity|]. split; [apply runs_bytes_iff; split; [reflexivity|]; unfold isize_max in *; lia|apply runs_ret].
Qed.
Lemma pans_bitmap n : pans (read_bitmap_le n) (fun _ => too_long n).
Proof.
  intros pre rest. split; [apply bitmap_panic|]. intros T. unfold read_bitmap_le, pbind, lift, alloc. unfold too_long in T. change 9223372036854775807 with isize_max in T.
  destruct (N.ltb_spec isize_max n); [reflexivity|lia].
Qed.
Definition columns (n : N) : parser (list N) :=
  cts <- read_bytes n ;; read_len_enc_num ;;; columns_meta (map b2n cts) ;;; read_bitmap_le n ;;; ret (map b2n cts).
Lemma exactp_cols n : exactp (columns n).
Proof. unfold columns. exb; [ex|]. exb; [apply exactp_lenenc|]. exb; [apply exactp_columns_meta|]. exb; ex. Qed.
Lemma pans_columns n : pans (columns n) (fun _ => too_long n).
Proof.
  eapply pans_conv; [|unfold columns; apply pans_bind; [ex|apply pans_bytes|intros; apply pans_bind; [apply exactp_lenenc|apply pans_safe, psafe_lenenc|intros; apply pans_bind;
    [apply exactp_columns_meta|apply pans_safe, psafe_columns_meta|intros; apply pans_bind; [ex|apply pans_bitmap|intros; apply pans_safe, psafe_ret]]]]].
  intros r. cbv beta. split; [|auto]. intros [H|(? & ? & ? & _ & _ & [[]|(? & ? & ? & _ & _ & [[]|(? & ? & ? & _ & _ & [H|(? & ? & ? & _ & _ & [])])])])]; exact H.
Qed.
Lemma runs_columns n s types : runs (columns n) s types <->
  exists cts ml metas nb, s = cts ++ ml ++ metas ++ nb /\ n <= 9223372036854775807 /\ N.of_nat (length cts) = n /\ types = map b2n cts /\ an_int ml /\
    Forall (fun t => In t known_types) types /\ length metas = list_sum (map meta_size types) /\ N.of_nat (length nb) = (n + 7) / 8.
Proof.
  unfold columns. split.
  - intros R. apply runs_bind_iff in R; [|ex|intros; exb; [apply exactp_lenenc|]; exb; [apply exactp_columns_meta|]; exb; ex]. destruct R as (cts & s2 & a & -> & R1 & R).
    apply runs_bind_iff in R; [|apply exactp_lenenc|intros; exb; [apply exactp_columns_meta|]; exb; ex]. destruct R as (ml & s3 & k & -> & R2 & R).
    apply runs_bind_iff in R; [|apply exactp_columns_meta|intros; exb; ex]. destruct R as (metas & s4 & ms & -> & R3 & R).
    apply runs_bind_iff in R; [|ex|intros; ex]. destruct R as (nb & s5 & bm & -> & R4 & R5). apply runs_ret_iff in R5. destruct R5 as [-> ->]. apply runs_bytes_iff in R1. destruct R1 as (-> & L & M).
    apply runs_lenenc_iff in R2. destruct (proj1 (takes_columns_meta _ metas) (ex_intro _ _ R3)) as [K L3]. destruct (proj1 (takes_bitmap _ nb) (ex_intro _ _ R4)) as [L4 _].
    exists cts, ml, metas, nb. rewrite app_nil_r. split; [reflexivity|]. split; [exact M|]. split; [exact L|]. split; [reflexivity|]. split; [now exists k|]. auto.
  - intros (cts & ml & metas & nb & -> & M & L & -> & (k & C) & K & L3 & L4).
    destruct (proj2 (takes_columns_meta _ metas) (conj K L3)) as (ms & R3). destruct (proj2 (takes_bitmap n nb) (conj L4 M)) as (bm & R4).
    eapply runs_bind; [apply runs_bytes_iff; auto|]. eapply runs_bind; [apply runs_lenenc; exact C|]. eapply runs_bind; [exact R3|]. eapply runs_bind_last; [exact R4|apply runs_ret].
Qed.

(* ---- the whole event ---- *)
Definition plain_table : parser (list unit) := n <- start ;; types <- columns n ;; pwhile (field_skel types).
Definition samep {A B} (p : parser A) (q : parser B) : Prop := forall buf pos, p buf pos = Panic <-> q buf pos = Panic.
Lemma samep_bind {A B C} (p : parser A) (f : A -> parser B) (g : A -> parser C) : (forall a, samep (f a) (g a)) -> samep (pbind p f) (pbind p g).
Proof. intros H buf pos. unfold pbind. destruct (p buf pos) as [[a q]|e| |]; try (split; discriminate || reflexivity). apply H. Qed.
Lemma samep_seek {B C} k d (p : parser B) (q : parser C) : d = Z.of_nat k -> (0 < k <= 8)%nat -> strict p -> samep p q -> samep (seek_cur d ;;; p) (read_bytes (N.of_nat k) ;;; q).
Proof. intros -> K S H buf pos. rewrite seek_bytes by assumption. revert buf pos. apply samep_bind. intros. exact H. Qed.
Lemma table_plain : samep parse_table_map plain_table.
Proof.
  assert (E : forall buf pos, plain_table buf pos = (read_u48 ;;; read_bytes 2 ;;; dl <- read_u8 ;; read_string dl ;;; read_bytes 1 ;;; tl <- read_u8 ;; read_string tl ;;; read_bytes 1 ;;;
    n <- read_len_enc_num ;; cts <- read_bytes n ;; read_len_enc_num ;;; columns_meta (map b2n cts) ;;; read_bitmap_le n ;;; pwhile (field_skel (map b2n cts))) buf pos).
  { intros buf pos. unfold plain_table, start, columns. repeat (rewrite pbind_assoc; apply pbind_ext; intros). apply pbind_ext. intros. repeat (rewrite pbind_assoc; apply pbind_ext; intros). reflexivity. }
  intros buf pos. rewrite E. clear E. revert buf pos. unfold parse_table_map.
  apply samep_bind. intros id. apply (samep_seek 2); [reflexivity|lia|apply strict_u8|]. apply samep_bind. intros dl. apply samep_bind. intros db.
  apply (samep_seek 1); [reflexivity|lia|apply strict_u8|]. apply samep_bind. intros tl. apply samep_bind. intros tn. apply (samep_seek 1); [reflexivity|lia|apply strict_lenenc|].
  apply samep_bind. intros n. apply samep_bind. intros cts. cbv zeta. apply samep_bind. intros ml. apply samep_bind. intros metas. apply samep_bind. intros nb.
  intros buf pos. unfold pbind, get_pos, get_len, pwhile. cbn [pwhile_aux]. destruct (Nat.ltb_spec pos (length buf)) as [L|L].
  - pose proof (loop_skel (map b2n cts) buf (S (length buf)) empty_metadata pos) as X. cbn [pwhile_aux] in X. destruct (Nat.ltb_spec pos (length buf)); [|lia].
    unfold parse_table_metadata. rewrite <- X. destruct (metadata_loop _ _ _ buf pos) as [[m q]|e| |]; split; discriminate || reflexivity.
  - split; discriminate.
Qed.
Theorem table_map_panics payload : parse_table_map payload 0%nat = Panic <-> table_map_stops payload.
Proof.
  rewrite (table_plain payload 0%nat). unfold table_map_stops.
  assert (F : forall types n s pre rest, runs (columns n) s types -> pwhile (field_skel types) (pre ++ rest) (length pre) = Panic <-> breaks (a_field types) field_stops rest).
  { intros types n s pre rest R. apply runs_columns in R. destruct R as (cts & ml & metas & nb & _ & M & L & -> & _ & K & _ & _).
    assert (M2 : N.of_nat (length (map b2n cts)) <= isize_max) by (rewrite map_length; unfold isize_max; lia).
    apply (pans_pwhile (field_skel (map b2n cts)) field_stops (a_field (map b2n cts))); [apply exactp_skel|now apply pans_field|now apply takes_field]. }
  unfold plain_table. split.
  - intros H. unfold pbind in H. destruct (start payload 0%nat) as [[n q]|e| |] eqn:S; try discriminate; [|exfalso; revert S; apply psafe_nopanic, psafe_start].
    destruct (runs_uses start exactp_start [] payload n q S) as (s1 & r1 & -> & R1 & ->). cbn [app] in H.
    destruct (columns n (s1 ++ r1) (length s1)) as [[types q2]|e| |] eqn:C; try discriminate.
    + right. destruct (runs_uses (columns n) (exactp_cols n) _ _ _ _ C) as (s2 & r2 & -> & R2 & ->). exists types, (s1 ++ s2), r2. split; [apply app_assoc|].
      split; [|apply (F _ _ _ (s1 ++ s2) r2 R2); now rewrite <- app_assoc]. apply runs_start in R1. apply runs_columns in R2.
      destruct R2 as (cts & ml & metas & nb & -> & M & L & -> & I & K & L3 & L4). exists n, s1, cts, ml, metas, nb. auto 10.
    + left. exists n, s1, r1. split; [reflexivity|]. split; [now apply runs_start|]. exact (proj1 (pans_columns n s1 r1) C).
  - intros [(n & s & post & -> & T & L)|(types & cols & fs & -> & (n & s & cts & ml & metas & nb & -> & T & M & L & -> & I & K & L3 & L4) & B)].
    + apply runs_start in T. unfold pbind at 1. pose proof (T [] post) as X. cbn [app length Nat.add] in X. rewrite X. unfold pbind. apply (pans_columns n s post) in L. now rewrite L.
    + apply runs_start in T. unfold pbind at 1. rewrite <- app_assoc. pose proof (T [] ((cts ++ ml ++ metas ++ nb) ++ fs)) as X. cbn [app length Nat.add] in X. rewrite X. unfold pbind.
      assert (R : runs (columns n) (cts ++ ml ++ metas ++ nb) (map b2n cts)) by (apply runs_columns; exists cts, ml, metas, nb; auto 10).
      rewrite (R s fs). apply (F _ _ _ (s ++ cts ++ ml ++ metas ++ nb) fs R) in B. rewrite app_length in B. rewrite <- app_assoc in B. exact B.
Qed.
