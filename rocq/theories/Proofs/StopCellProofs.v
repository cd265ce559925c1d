(* Exactly which cells are read and which make the decoder panic. *)
From Verif Require Import Base.Tac Base.Bytes Base.Text Base.Res Base.Str Base.Parse Base.Loop Model.Codec Model.Values Model.Decimal Model.Cells
  Model.TableMap Spec.CodecSpec Spec.EventSpec Spec.CellSpec Spec.TableSpec Spec.SafeSpec Spec.StopSpec
  Proofs.CodecProofs Proofs.DecimalProofs Proofs.EventSafe Proofs.RowProofs Proofs.DecodeSafe Proofs.RiskProofs Proofs.OnceProofs Proofs.StopProofs Proofs.StopTableProofs.
Local Open Scope N_scope.

(* ---- a parser, what it reads and where it panics ---- *)
Definition both {A} (p : parser A) (R X : list byte -> Prop) : Prop := exactp p /\ takes p R /\ pans p X.
Lemma both_map {A B} (p : parser A) (f : A -> B) R X : both p R X -> both (x <- p ;; ret (f x)) R X.
Proof.
  intros (He & Ht & Hp). split; [exb; [exact He|ex]|]. split.
  - eapply takes_conv; [|apply takes_bind; [exact He|intros; ex|intros a; apply takes_ret]]. intros s. cbv beta. rewrite <- (Ht s). split.
    + intros (s1 & s2 & a & -> & R1 & L). destruct s2; [|discriminate]. rewrite app_nil_r. now exists a.
    + intros (a & R1). exists s, [], a. rewrite app_nil_r. auto.
  - eapply pans_conv; [|apply pans_bind; [exact He|exact Hp|intros; apply pans_safe, psafe_ret]]. intros r. cbv beta. split; [|auto].
    intros [H|(? & ? & ? & _ & _ & [])]. exact H.
Qed.
Lemma both_conv {A} (p : parser A) R X R' X' : both p R X -> (forall s, R s <-> R' s) -> (forall s, X s <-> X' s) -> both p R' X'.
Proof. intros (He & Ht & Hp) E1 E2. split; [exact He|]. split; [now apply (takes_conv p R)|now apply (pans_conv p X)]. Qed.
Lemma both_le k : (k <= 8)%nat -> both (read_le k) (fun s => N.of_nat (length s) = N.of_nat k) (fun _ => False).
Proof. intros H. split; [ex|]. split; [|now apply pans_le]. eapply takes_conv; [|now apply takes_le]. intros s. cbv beta. lia. Qed.
Lemma both_cell {A} bl ty m (p : parser A) (f : A -> value) R X : (forall buf pos, parse_cell bl ty m buf pos = (x <- p ;; ret (f x)) buf pos) -> both p R X ->
  (forall s, R s <-> cell_reads bl ty m s) -> (forall s, X s <-> cell_stops bl ty m s) ->
  takes (parse_cell bl ty m) (cell_reads bl ty m) /\ pans (parse_cell bl ty m) (cell_stops bl ty m).
Proof.
  intros E B E1 E2. apply (both_map p f) in B. apply (both_conv _ _ _ _ _ B E1) in E2. destruct E2 as (_ & Ht & Hp). split.
  - intros s. rewrite <- (Ht s). split; intros (v & Rv); exists v; intros pre post; [rewrite <- E|rewrite E]; apply Rv.
  - now apply (pans_eq _ _ _ E).
Qed.

(* ---- fractions ---- *)
Definition frac_risky (bl : build) (m : N) : Prop := (bl = Debug /\ 7 <= m) \/ (bl = Release /\ 17 <= m < 65535).
Lemma both_fractional bl m : m < 65536 -> both (parse_fractional bl m) (fun s => N.of_nat (length s) = frac_size m /\ ~ frac_risky bl m)
  (fun s => frac_risky bl m /\ (if m <=? 16 then frac_size m else 0) <= N.of_nat (length s)).
Proof.
  intros Hm. split; [apply exactp_fractional|]. unfold frac_risky, frac_size. destruct (N.eq_dec m 65535) as [->|NE].
  { destruct bl.
    - assert (E : forall buf pos, parse_fractional Debug 65535 buf pos = Panic) by reflexivity. split.
      + intros s. split; [intros (v & R); apply runs_here in R; rewrite E in R; discriminate|]. intros [_ H]. exfalso. apply H. left. split; [reflexivity|lia].
      + intros pre rest. rewrite E. split; [|reflexivity]. intros _. split; [left; split; [reflexivity|lia]|]. change (65535 <=? 16) with false. cbv iota. lia.
    - assert (E : forall buf pos, parse_fractional Release 65535 buf pos = ret 0 buf pos) by reflexivity. split.
      + intros s. change ((65535 + 1) mod 65536 / 2) with 0. split.
        * intros (v & R). apply runs_here in R. rewrite E in R. injection R as _ L. split; [lia|]. intros [[X _]|[_ X]]; [discriminate|lia].
        * intros [L _]. exists 0. destruct s; [|discriminate L]. intros pre post. rewrite E. apply runs_ret.
      + intros pre rest. rewrite E. split; [discriminate|]. intros [[[X _]|[_ X]] _]; [discriminate|lia]. }
  rewrite (N.mod_small (m + 1)) by lia.
  assert (E : forall buf pos, parse_fractional bl m buf pos = (if (m + 1) / 2 =? 0 then ret 0 else
    f <- read_uint_be ((m + 1) / 2) ;; if (m + 1) / 2 <=? 3 then lift (umul u64max1 bl f (100 ^ (3 - (m + 1) / 2))) else match bl with Debug => fun _ _ => Panic | Release => ret 0 end) buf pos).
  { intros buf pos. unfold parse_fractional. rewrite uadd_ok by lia. reflexivity. }
  destruct (N.eqb_spec ((m + 1) / 2) 0) as [Z|Z].
  { split.
    - intros s. split.
      + intros (v & R). apply runs_here in R. rewrite E in R. injection R as _ L. split; [lia|]. lia.
      + intros [L _]. exists 0. destruct s; [|cbn [length] in L; lia]. intros pre post. rewrite E. apply runs_ret.
    - intros pre rest. rewrite E. split; [discriminate|lia]. }
  destruct (N.le_gt_cases ((m + 1) / 2) 8) as [C|C].
  2: { assert (E2 : forall buf pos, parse_fractional bl m buf pos = Panic).
       { intros buf pos. rewrite E. unfold pbind, read_uint_be. destruct (((m + 1) / 2 =? 0) || (8 <? (m + 1) / 2)) eqn:X; [reflexivity|lia]. }
       assert (F : (bl = Debug /\ 7 <= m) \/ (bl = Release /\ 17 <= m < 65535)) by (destruct bl; [left|right]; (split; [reflexivity|lia])).
       split.
       - intros s. split; [intros (v & R); apply runs_here in R; rewrite E2 in R; discriminate|]. intros [_ H]. contradiction.
       - intros pre rest. rewrite E2. split; [|reflexivity]. intros _. split; [exact F|]. destruct (N.leb_spec m 16); lia. }
  assert (Q : forall s, N.of_nat (length s) = (m + 1) / 2 -> runs (read_uint_be ((m + 1) / 2)) s (be_dec s)) by (intros s L; apply runs_uint_be_iff; repeat split; lia).
  destruct (N.leb_spec ((m + 1) / 2) 3) as [C3|C3].
  { assert (V : forall s, N.of_nat (length s) = (m + 1) / 2 -> umul u64max1 bl (be_dec s) (100 ^ (3 - (m + 1) / 2)) = Ok (be_dec s * 100 ^ (3 - (m + 1) / 2))).
    { intros s L. apply umul_ok. pose proof (be_dec_lt s) as B. rewrite L in B. assert (D : (m + 1) / 2 = 1 \/ (m + 1) / 2 = 2 \/ (m + 1) / 2 = 3) by lia.
      destruct D as [D|[D|D]]; rewrite D in *; [change (100 ^ (3 - 1)) with 10000; change (256 ^ 1) with 256 in B|change (100 ^ (3 - 2)) with 100; change (256 ^ 2) with 65536 in B
        |change (100 ^ (3 - 3)) with 1; change (256 ^ 3) with 16777216 in B]; unfold u64max1; lia. }
    assert (NR : ~ ((bl = Debug /\ 7 <= m) \/ (bl = Release /\ 17 <= m < 65535))) by lia. split.
    - intros s. split.
      + intros (v & R). split; [|exact NR]. assert (R2 : runs (f <- read_uint_be ((m + 1) / 2) ;; lift (umul u64max1 bl f (100 ^ (3 - (m + 1) / 2)))) s v) by (intros pre post; rewrite <- E; apply R).
        apply runs_bind_iff in R2; [|ex|intros; ex]. destruct R2 as (s1 & s2 & f & -> & R2 & R3). apply runs_uint_be_iff in R2. apply runs_lift_iff in R3. destruct R3 as [-> _]. rewrite app_nil_r. apply R2.
      + intros [L _]. eexists. intros pre post. rewrite E. revert pre post. eapply runs_bind_last; [apply Q; exact L|]. apply runs_lift_iff. split; [reflexivity|]. now apply V.
    - intros pre rest. split; [|tauto]. intros P. exfalso. rewrite E in P. unfold pbind in P.
      destruct (read_uint_be ((m + 1) / 2) (pre ++ rest) (length pre)) as [[f q]|e| |] eqn:R; try discriminate.
      + destruct (runs_uses _ (exactp_uint_be _) _ _ _ _ R) as (s & post & -> & R1 & ->). apply runs_uint_be_iff in R1. destruct R1 as (_ & L & ->). rewrite (V s L) in P. discriminate.
      + revert R. apply psafe_nopanic, psafe_uint_be. lia. }
  destruct (N.leb_spec m 16) as [M16|M16]; [|lia]. destruct bl.
  - split.
    + intros s. split; [|intros [_ X]; exfalso; apply X; left; split; [reflexivity|lia]]. intros (v & R). assert (R2 : runs (f <- read_uint_be ((m + 1) / 2) ;; (fun _ _ => Panic)) s v) by (intros pre post; rewrite <- E; apply R).
      apply runs_bind_iff in R2; [|ex|intros; ex]. destruct R2 as (s1 & s2 & f & -> & R2 & R3). now apply runs_panic_iff in R3.
    + intros pre rest. rewrite E. unfold pbind. split.
      * intros P. split; [left; split; [reflexivity|lia]|]. destruct (read_uint_be ((m + 1) / 2) (pre ++ rest) (length pre)) as [[f q]|e| |] eqn:R; try discriminate.
        -- destruct (runs_uses _ (exactp_uint_be _) _ _ _ _ R) as (s & post & -> & R1 & ->). apply runs_uint_be_iff in R1. rewrite app_length. lia.
        -- exfalso. revert R. apply psafe_nopanic, psafe_uint_be. lia.
      * intros [_ L]. destruct (uint_be_enough ((m + 1) / 2) (pre ++ rest) (length pre)) as (v & ->); [lia|rewrite app_length; lia|reflexivity].
  - assert (NR : ~ ((Release = Debug /\ 7 <= m) \/ (Release = Release /\ 17 <= m < 65535))) by (intros [[X _]|[_ X]]; [discriminate|lia]). split.
    + intros s. split.
      * intros (v & R). split; [|exact NR]. assert (R2 : runs (f <- read_uint_be ((m + 1) / 2) ;; ret 0) s v) by (intros pre post; rewrite <- E; apply R).
        apply runs_bind_iff in R2; [|ex|intros; ex]. destruct R2 as (s1 & s2 & f & -> & R2 & R3). apply runs_uint_be_iff in R2. apply runs_ret_iff in R3. destruct R3 as [-> _]. rewrite app_nil_r. apply R2.
      * intros [L _]. exists 0. intros pre post. rewrite E. revert pre post. eapply runs_bind_last; [apply Q; exact L|apply runs_ret].
    + intros pre rest. split; [|tauto]. intros P. exfalso. rewrite E in P. unfold pbind in P.
      destruct (read_uint_be ((m + 1) / 2) (pre ++ rest) (length pre)) as [[f q]|e| |] eqn:R; try discriminate. revert R. apply psafe_nopanic, psafe_uint_be. lia.
Qed.
Lemma vals_runs {A} (P : A -> Prop) p s a : pvals P p -> runs p s a -> P a.
Proof. intros H R. apply runs_here in R. exact (H _ _ _ _ R). Qed.
(* a number, a fraction, and what is made of them *)
Lemma both_timed {A B} (k : N) (p : parser A) bl m (g : A -> N -> parser B) (ok : A -> Prop) (good : list byte -> Prop) : m < 65536 ->
  exactp p -> psafe p -> (forall s v, runs p s v -> N.of_nat (length s) = k) -> (forall s, N.of_nat (length s) = k -> exists v, runs p s v) ->
  (forall v f, exactp (g v f)) -> (forall s v f, runs p s v -> f < u64max1 -> psafe (g v f)) ->
  (forall s v f z, runs p s v -> f < u64max1 -> (exists w, runs (g v f) z w) <-> z = [] /\ good s) ->
  both (v <- p ;; f <- parse_fractional bl m ;; g v f) (fun s => N.of_nat (length s) = k + frac_size m /\ ~ frac_risky bl m /\ good (firstn (N.to_nat k) s))
    (fun s => frac_risky bl m /\ k + (if m <=? 16 then frac_size m else 0) <= N.of_nat (length s)).
Proof.
  intros Hm He Hs L1 L2 Hg Gs Gr. destruct (both_fractional bl m Hm) as (Fe & Ft & Fp).
  assert (Fv : ~ frac_risky bl m -> pvals (fun f => f < u64max1) (parse_fractional bl m)) by (intros H; exact (proj2 (fractional_psafe bl m Hm H))).
  split; [exb; [exact He|]; exb; [exact Fe|apply Hg]|]. split.
  - intros s. split.
    + intros (w & R). apply runs_bind_iff in R; [|exact He|intros; exb; [exact Fe|apply Hg]]. destruct R as (s1 & s2 & v & -> & R1 & R). apply runs_bind_iff in R; [|exact Fe|intros; apply Hg].
      destruct R as (s3 & s4 & f & -> & R2 & R3). destruct (proj1 (Ft s3) (ex_intro _ _ R2)) as [L N]. pose proof (vals_runs _ _ _ _ (Fv N) R2) as V. cbv beta in V.
      destruct (proj1 (Gr s1 v f s4 R1 V) (ex_intro _ _ R3)) as [-> G]. pose proof (L1 _ _ R1) as L3. rewrite app_nil_r, app_length. split; [lia|]. split; [exact N|].
      replace (N.to_nat k) with (length s1) by lia. now rewrite firstn_app, firstn_all, Nat.sub_diag, app_nil_r.
    + intros (L & N & G). destruct (L2 (firstn (N.to_nat k) s)) as (v & R1); [rewrite firstn_length; lia|].
      destruct (proj2 (Ft (skipn (N.to_nat k) s))) as (f & R2); [split; [rewrite skipn_length; lia|exact N]|]. pose proof (vals_runs _ _ _ _ (Fv N) R2) as V. cbv beta in V.
      destruct (proj2 (Gr _ v f [] R1 V)) as (w & R3); [auto|]. exists w. rewrite <- (firstn_skipn (N.to_nat k) s). eapply runs_bind; [exact R1|]. eapply runs_bind_last; [exact R2|exact R3].
  - intros pre rest. unfold pbind at 1. split.
    + destruct (p (pre ++ rest) (length pre)) as [[v q]|e| |] eqn:E; try discriminate; [|exfalso; revert E; now apply psafe_nopanic].
      destruct (runs_uses p He _ _ _ _ E) as (s & post & -> & R & ->). intros P. rewrite app_assoc in P. unfold pbind in P. pose proof (L1 _ _ R).
      destruct (parse_fractional bl m ((pre ++ s) ++ post) (length (pre ++ s))) as [[f q]|e| |] eqn:E2; try discriminate.
      * exfalso. destruct (runs_uses _ Fe _ _ _ _ E2) as (s2 & post2 & -> & R2 & ->). destruct (proj1 (Ft s2) (ex_intro _ _ R2)) as [_ N].
        pose proof (vals_runs _ _ _ _ (Fv N) R2) as V. exact (psafe_nopanic _ (Gs s v f R V) _ _ P).
      * apply (Fp (pre ++ s) post) in E2. destruct E2 as [N L]. split; [exact N|]. rewrite app_length. lia.
    + intros [N L]. destruct (L2 (firstn (N.to_nat k) rest)) as (v & R); [rewrite firstn_length; lia|]. pose proof (firstn_skipn (N.to_nat k) rest) as Z.
      set (s := firstn (N.to_nat k) rest) in *. set (post := skipn (N.to_nat k) rest) in *. rewrite <- Z, (R pre post). unfold pbind.
      assert (P : parse_fractional bl m ((pre ++ s) ++ post) (length (pre ++ s)) = Panic).
      { apply Fp. split; [exact N|]. unfold post. rewrite skipn_length. lia. }
      rewrite <- app_assoc, app_length in P. now rewrite P.
Qed.

(* ---- decimals ---- *)
Lemma exactp_int_groups k : forall st acc, exactp (dec_int_groups k st acc).
Proof. induction k as [|k IH]; intros st acc; cbn [dec_int_groups]; [ex|]. exb; [ex|]. destruct st; [apply IH|]. destruct (_ <? _); apply IH. Qed.
Lemma exactp_frac_groups k : forall acc, exactp (dec_frac_groups k acc).
Proof. induction k as [|k IH]; intros acc; cbn [dec_frac_groups]; [ex|]. exb; [ex|apply IH]. Qed.
Lemma groups_int k : forall st acc s, length s = (4 * k)%nat -> exists v, runs (dec_int_groups k st acc) s v.
Proof.
  induction k as [|k IH]; intros st acc s L; cbn [dec_int_groups].
  - destruct s; [|discriminate]. eexists. apply runs_ret.
  - rewrite <- (firstn_skipn 4 s). destruct (IH true (acc ++ pad_text 9 (be_dec (firstn 4 s))) (skipn 4 s)) as (v1 & R1); [rewrite skipn_length; lia|].
    destruct (IH true (acc ++ dec_text (be_dec (firstn 4 s))) (skipn 4 s)) as (v2 & R2); [rewrite skipn_length; lia|]. destruct (IH false acc (skipn 4 s)) as (v3 & R3); [rewrite skipn_length; lia|].
    assert (R : runs (read_be 4) (firstn 4 s) (be_dec (firstn 4 s))) by (apply runs_be_iff; [lia|]; split; [rewrite firstn_length; lia|reflexivity]).
    destruct st; [exists v1; eapply runs_bind; eassumption|]. destruct (0 <? be_dec (firstn 4 s)) eqn:Z; [exists v2|exists v3]; (eapply runs_bind; [exact R|]; cbv beta; rewrite Z; assumption).
Qed.
Lemma groups_frac k : forall acc s, length s = (4 * k)%nat -> exists v, runs (dec_frac_groups k acc) s v.
Proof.
  induction k as [|k IH]; intros acc s L; cbn [dec_frac_groups].
  - destruct s; [|discriminate]. eexists. apply runs_ret.
  - rewrite <- (firstn_skipn 4 s). destruct (IH (acc ++ pad_text 9 (be_dec (firstn 4 s))) (skipn 4 s)) as (v1 & R1); [rewrite skipn_length; lia|].
    exists v1. eapply runs_bind; [apply runs_be_iff; [lia|]; split; [rewrite firstn_length; lia|reflexivity]|exact R1].
Qed.
Lemma digits_decode ui ci uf cf sc sg s : N.of_nat (length s) = ui * 4 + compressed_bytes ci + uf * 4 + compressed_bytes cf ->
  exists t, runs (decimal_digits ui ci uf cf sc sg) s t.
Proof.
  intros L. pose proof (compressed_small ci) as B1. pose proof (compressed_small cf) as B2.
  set (a := N.to_nat (compressed_bytes ci)). set (b := (4 * N.to_nat ui)%nat). set (c := (4 * N.to_nat uf)%nat).
  set (s1 := firstn a s). set (s2 := firstn b (skipn a s)). set (s3 := firstn c (skipn b (skipn a s))). set (s4 := skipn c (skipn b (skipn a s))).
  assert (S : s = s1 ++ s2 ++ s3 ++ s4) by (unfold s1, s2, s3, s4; now rewrite !firstn_skipn).
  assert (L1 : length s1 = a) by (unfold s1, a; rewrite firstn_length; lia). assert (L2 : length s2 = b) by (unfold s2, a, b; rewrite firstn_length, skipn_length; lia).
  assert (L3 : length s3 = c) by (unfold s3, a, b, c; rewrite firstn_length, !skipn_length; lia). assert (L4 : length s4 = N.to_nat (compressed_bytes cf)) by (unfold s4, a, b, c; rewrite !skipn_length; lia).
  clearbody s1 s2 s3 s4. subst s. unfold decimal_digits.
  assert (X1 : exists v, runs (let size := compressed_bytes ci in if 0 <? size then n <- read_uint_be size ;; let n := n mod u32max1 in if 0 <? n then ret (true, sg ++ dec_text n) else ret (false, sg) else ret (false, sg)) s1 v).
  { cbv zeta. destruct (N.ltb_spec 0 (compressed_bytes ci)) as [P|P].
    - destruct (0 <? be_dec s1 mod u32max1) eqn:Z.
      + eexists. eapply runs_bind_last; [apply runs_uint_be_iff; repeat split; unfold a in L1; lia|]. cbv beta. rewrite Z. apply runs_ret.
      + eexists. eapply runs_bind_last; [apply runs_uint_be_iff; repeat split; unfold a in L1; lia|]. cbv beta. rewrite Z. apply runs_ret.
    - destruct s1; [|unfold a in L1; cbn [length] in L1; lia]. eexists. apply runs_ret. }
  destruct X1 as ([st acc] & X1). destruct (groups_int (N.to_nat ui) st acc s2 L2) as ([st2 acc2] & X2).
  set (acc3 := let acc := if st2 then acc2 else acc2 ++ [48] in if 0 <? sc then acc ++ [46] else acc). destruct (groups_frac (N.to_nat uf) acc3 s3 L3) as (acc4 & X3).
  assert (X4 : exists v, runs (let size := compressed_bytes cf in if 0 <? size then n <- read_uint_be size ;; ret (acc4 ++ pad_text (N.to_nat cf) (n mod u32max1)) else ret acc4) s4 v).
  { cbv zeta. destruct (N.ltb_spec 0 (compressed_bytes cf)) as [P|P].
    - eexists. eapply runs_bind_last; [apply runs_uint_be_iff; repeat split; lia|apply runs_ret].
    - destruct s4; [|cbn [length] in L4; lia]. eexists. apply runs_ret. }
  destruct X4 as (v & X4). exists v. eapply runs_bind; [exact X1|]. eapply runs_bind; [exact X2|]. eapply runs_bind; [exact X3|exact X4].
Qed.
Lemma compressed_group d : d / 9 * 4 + compressed_bytes (d - d / 9 * 9) = group_size d.
Proof.
  unfold group_size. f_equal. replace (d - d / 9 * 9) with (d mod 9) by lia. rewrite <- (N2Nat.id (d mod 9)) at 1. apply compressed_bytes_for. lia.
Qed.
Lemma group_room d : 0 < d -> 0 < group_size d.
Proof.
  intros H. rewrite <- compressed_group. destruct (N.le_gt_cases 9 d); [lia|]. pose proof (compressed_pos (d - d / 9 * 9)). lia.
Qed.
Lemma group_small d : d < 256 -> group_size d <= 200.
Proof. intros H. rewrite <- compressed_group. pose proof (compressed_small (d - d / 9 * 9)). lia. Qed.
Definition dec_risky (bl : build) (m : N) : Prop := m = 0 \/ (bl = Debug /\ m mod 256 < m / 256).
Lemma both_decimal bl m : m < 65536 -> both (parse_decimal bl m) (fun s => N.of_nat (length s) = group_size (int_digits m) + group_size (m / 256) /\ ~ dec_risky bl m) (fun _ => dec_risky bl m).
Proof.
  intros Hm. assert (HI : forall q, exactp (parse_decimal q m)) by (intros q; unfold parse_decimal; cbv zeta; exb; [ex|]; exb; [ex|]; destruct a0; ex).
  split; [apply HI|]. assert (NP : ~ dec_risky bl m -> psafe (parse_decimal bl m)) by now apply decimal_psafe.
  destruct (N.eq_dec m 0) as [->|NZ].
  { assert (E : forall buf pos, parse_decimal bl 0 buf pos = Panic).
    { intros buf pos. unfold parse_decimal. cbv zeta. change (usub 65536 bl (0 mod 256) ((0 / 256) mod 256)) with (@Ok N 0). unfold pbind at 1, lift at 1. unfold pbind.
      change (0 mod 256 / 9 * 4 + _ + _ + _) with 0. destruct (bytes_none buf pos) as (q & ->). reflexivity. }
    split; [intros s; split; [intros (v & R); apply runs_here in R; rewrite E in R; discriminate|intros [_ X]; exfalso; apply X; now left]|].
    intros pre rest. rewrite E. split; [intros _; now left|reflexivity]. }
  assert (HM : (m / 256) mod 256 = m / 256) by (apply N.mod_small; lia).
  destruct (usub 65536 bl (m mod 256) ((m / 256) mod 256)) as [a|e| |] eqn:U.
  2, 4: exfalso; revert U; unfold usub; destruct (_ <=? _); [discriminate|]; destruct bl; discriminate.
  2: { assert (E : forall buf pos, parse_decimal bl m buf pos = Panic) by (intros buf pos; unfold parse_decimal; cbv zeta; rewrite U; reflexivity).
       assert (RK : dec_risky bl m) by (right; revert U; unfold usub; destruct (N.leb_spec ((m / 256) mod 256) (m mod 256)); [discriminate|]; destruct bl; [|discriminate]; intros _; split; [reflexivity|lia]).
       split; [intros s; split; [intros (v & R); apply runs_here in R; rewrite E in R; discriminate|intros [_ X]; contradiction]|].
       intros pre rest. rewrite E. split; [intros _; exact RK|reflexivity]. }
  assert (A : a mod 256 = int_digits m /\ ~ dec_risky bl m /\ (0 < int_digits m \/ 0 < m / 256)).
  { revert U. unfold usub, int_digits, dec_risky. destruct (N.leb_spec ((m / 256) mod 256) (m mod 256)) as [L|L].
    - intros U. injection U as <-. split; [lia|]. split; [|lia]. intros [Z|[_ Z]]; lia.
    - destruct bl; [discriminate|]. intros U. injection U as <-. split; [lia|]. split; [|lia]. intros [Z|[Z _]]; [lia|discriminate]. }
  destruct A as (AI & NR & POS). split.
  2: { intros pre rest. split; [|contradiction]. intros P. exfalso. exact (psafe_nopanic _ (NP NR) _ _ P). }
  set (len := group_size (int_digits m) + group_size (m / 256)).
  assert (LB : 0 < len <= isize_max).
  { unfold len. pose proof (group_small (int_digits m)). pose proof (group_small (m / 256)). pose proof (group_room (int_digits m)). pose proof (group_room (m / 256)).
    assert (int_digits m < 256) by (unfold int_digits; lia). unfold isize_max. lia. }
  assert (E : forall buf pos, parse_decimal bl m buf pos = (value <- read_bytes len ;; match value with
      | [] => fun _ _ => Panic
      | b0 :: r => lift (match decimal_digits (int_digits m / 9) (int_digits m - int_digits m / 9 * 9) (m / 256 / 9) (m / 256 - m / 256 / 9 * 9) (m / 256)
          (if N.land (b2n b0) 0x80 =? 0 then [45] else []) (if N.land (b2n b0) 0x80 =? 0 then map (byte_xor 0xFF) (byte_xor 0x80 b0 :: r) else byte_xor 0x80 b0 :: r) 0%nat with
          | Ok (t, _) => Ok t | Err e => Err e | Panic => Panic | Diverge => Diverge end)
      end) buf pos).
  { intros buf pos. unfold parse_decimal. cbv zeta. rewrite U, HM. unfold pbind at 1, lift at 1. rewrite AI.
    replace (int_digits m / 9 * 4 + compressed_bytes (int_digits m - int_digits m / 9 * 9) + m / 256 / 9 * 4 + compressed_bytes (m / 256 - m / 256 / 9 * 9)) with len; [reflexivity|].
    unfold len. rewrite <- !compressed_group. lia. }
  intros s. split.
  - intros (v & R). split; [|exact NR]. apply runs_here in R. rewrite E in R. unfold pbind in R. destruct (read_bytes len s 0%nat) as [[x q]|e| |] eqn:B; try discriminate.
    destruct (runs_uses _ (exactp_bytes len) [] s x q B) as (s1 & post & -> & R1 & ->). apply runs_bytes_iff in R1. destruct R1 as (-> & L & _). cbn [app] in R.
    destruct s1 as [|b0 r]; [discriminate|]. unfold lift in R. match type of R with context [decimal_digits ?a1 ?a2 ?a3 ?a4 ?a5 ?a6 ?a7 ?a8] => destruct (decimal_digits a1 a2 a3 a4 a5 a6 a7 a8) as [[t w]|e| |] end; try discriminate.
    injection R as _ L2. rewrite app_length in *. cbn [length] in *. fold len. lia.
  - intros [L _]. fold len in L. destruct s as [|b0 r]; [cbn [length] in L; lia|].
    set (w := if N.land (b2n b0) 0x80 =? 0 then map (byte_xor 0xFF) (byte_xor 0x80 b0 :: r) else byte_xor 0x80 b0 :: r).
    assert (LW : N.of_nat (length w) = len) by (unfold w; destruct (_ =? _); [rewrite map_length|]; exact L).
    destruct (digits_decode (int_digits m / 9) (int_digits m - int_digits m / 9 * 9) (m / 256 / 9) (m / 256 - m / 256 / 9 * 9) (m / 256) (if N.land (b2n b0) 0x80 =? 0 then [45] else []) w) as (t & R).
    { rewrite LW. unfold len. rewrite <- !compressed_group. lia. }
    exists t. intros pre post. rewrite E. revert pre post. eapply runs_bind_last; [apply runs_bytes_iff; split; [reflexivity|]; split; [exact L|apply LB]|].
    apply runs_lift_iff. split; [reflexivity|]. apply runs_here in R. fold w. now rewrite R.
Qed.

(* ---- the other cells ---- *)
Lemma both_string m : both (parse_string m) (fun s => exists count t, s = count ++ t /\ length count = (if (m <? 256)%N then 1 else 2)%nat /\ le_dec count = N.of_nat (length t) /\ is_text t) (fun _ => False).
Proof.
  assert (E : forall buf pos, parse_string m buf pos = (n <- read_le (if (m <? 256)%N then 1 else 2)%nat ;; read_string n) buf pos) by (intros; unfold parse_string; destruct (m <? 256); reflexivity).
  set (k := (if (m <? 256)%N then 1 else 2)%nat) in *. assert (K : (k <= 2)%nat) by (unfold k; destruct (_ <? _); lia).
  assert (SM : forall v, v < 256 ^ N.of_nat k -> v <= isize_max).
  { intros v V. assert (256 ^ N.of_nat k <= 256 ^ 2) by (apply N.pow_le_mono_r; lia). change (256 ^ 2) with 65536 in *. unfold isize_max. lia. }
  split; [unfold parse_string; exb; [destruct (_ <? _); ex|ex]|]. split.
  - assert (G : takes (n <- read_le k ;; read_string n) (fun s => exists count t, s = count ++ t /\ length count = k /\ le_dec count = N.of_nat (length t) /\ is_text t)).
    { eapply takes_conv; [|apply takes_bind; [ex|intros; ex|intros; apply takes_string]]. intros s. cbv beta. split.
      - intros (s1 & s2 & n & -> & R & L & M & T). apply runs_le_iff in R; [|lia]. destruct R as [L1 ->]. exists s1, s2. auto.
      - intros (c & t & -> & L & V & T). exists c, t, (le_dec c). split; [reflexivity|]. split; [apply runs_le_iff; [lia|]; auto|]. split; [now symmetry|]. split; [|exact T].
        apply SM. pose proof (le_dec_lt c) as X. now rewrite L in X. }
    intros s. rewrite <- (G s). split; intros (v & R); exists v; intros pre post; [rewrite <- E|rewrite E]; apply R.
  - apply (pans_eq _ _ _ E). apply pans_safe. refine (psafe_bind_vals _ _ _ _ (pvals_le k) _); [apply psafe_le; lia|]. intros n V. apply psafe_string. now apply SM.
Qed.
Lemma both_bit m : m < 65536 -> both (parse_bit m) (fun s => N.of_nat (length s) = (m / 256 * 8 + m mod 256 + 7) / 8) (fun _ => False).
Proof.
  intros Hm. unfold parse_bit. cbv zeta. apply both_map. set (n := m / 256 * 8 + m mod 256). assert (Hn : n <= 2295) by (unfold n; lia). clearbody n.
  split; [ex|]. split; [|apply pans_safe, psafe_bitmap_be; unfold isize_max; lia]. intros s. unfold read_bitmap_be. split.
  - intros (v & R). apply runs_bind_iff in R; [|ex|intros; exb; ex]. destruct R as (s1 & s2 & u & -> & R1 & R). apply runs_bind_iff in R; [|ex|intros; ex].
    destruct R as (s3 & s4 & bs & -> & R2 & R3). apply runs_lift_iff in R1. apply runs_bytes_iff in R2. apply runs_ret_iff in R3. destruct R1 as [-> _], R3 as [-> _], R2 as (_ & L & _).
    cbn [app]. now rewrite app_nil_r.
  - intros L. eexists. apply runs_bind_iff; [ex|intros; exb; ex|]. exists [], s, tt. split; [reflexivity|]. split; [apply runs_lift_iff; split; [reflexivity|apply alloc_ok; unfold isize_max; lia]|].
    eapply runs_bind_last; [apply runs_bytes_iff; split; [reflexivity|]; split; [exact L|unfold isize_max; lia]|apply runs_ret].
Qed.
Lemma uint_le_panics n buf pos : n = 0 \/ 9 <= n -> read_uint_le n buf pos = Panic.
Proof. intros H. unfold read_uint_le. destruct ((n =? 0) || (8 <? n)) eqn:E; [reflexivity|lia]. Qed.
Lemma both_uint m : both (read_uint_le m) (fun s => N.of_nat (length s) = m /\ 1 <= m <= 8) (fun _ => m = 0 \/ 9 <= m).
Proof.
  split; [ex|]. split.
  - intros s. split; [intros (v & R); apply runs_uint_le_iff in R; tauto|]. intros [L M]. exists (le_dec s). apply runs_uint_le_iff. auto.
  - intros pre rest. split; [|apply uint_le_panics]. intros P. destruct (N.eq_dec m 0); [now left|]. destruct (N.le_gt_cases 9 m); [now right|]. exfalso. revert P. apply psafe_nopanic, psafe_uint_le. lia.
Qed.
Lemma both_blob m : both (parse_blob m) (fun s => exists count t, s = count ++ t /\ N.of_nat (length count) = m /\ 1 <= m <= 8 /\ le_dec count = N.of_nat (length t) /\ N.of_nat (length t) <= 9223372036854775807)
  (fun s => m = 0 \/ 9 <= m \/ (m = 8 /\ exists count post, s = count ++ post /\ length count = 8%nat /\ too_long (le_dec count))).
Proof.
  destruct (both_uint m) as (Ue & Ut & Up). split; [unfold parse_blob; exb; ex|]. split.
  - eapply takes_conv; [|unfold parse_blob; apply takes_bind; [exact Ue|intros; ex|intros n s; apply (iff_refl _)]]. intros s. cbv beta. split.
    + intros (s1 & s2 & n & -> & R & (x & R2)). apply runs_uint_le_iff in R. apply runs_bytes_iff in R2. destruct R as (M & L & ->), R2 as (_ & L2 & M2). exists s1, s2. unfold isize_max in M2. split; [reflexivity|]. repeat split; try tauto; lia.
    + intros (c & t & -> & L & M & V & B). exists c, t, (le_dec c). split; [reflexivity|]. split; [apply runs_uint_le_iff; auto|]. exists t. apply runs_bytes_iff. rewrite V. auto.
  - eapply pans_conv; [|unfold parse_blob; apply pans_bind; [exact Ue|exact Up|intros; apply pans_bytes]]. intros s. cbv beta. split.
    + intros [[H|H]|(u & n & post & -> & R & T)]; [auto|auto|]. apply runs_uint_le_iff in R. destruct R as (M & L & ->). right. right.
      assert (M8 : m = 8). { destruct (N.eq_dec m 8); [assumption|]. exfalso. pose proof (le_dec_lt u) as X. rewrite L in X. assert (256 ^ m <= 256 ^ 7) by (apply N.pow_le_mono_r; lia).
        change (256 ^ 7) with 72057594037927936 in *. unfold too_long in T. lia. }
      split; [exact M8|]. exists u, post. split; [reflexivity|]. split; [lia|exact T].
    + intros [H|[H|(-> & c & post & -> & L & T)]]; [auto|auto|]. right. exists c, (le_dec c), post. split; [reflexivity|]. split; [apply runs_uint_le_iff; repeat split; lia|exact T].
Qed.
Lemma both_time : both parse_time (fun s => N.of_nat (length s) = 3 /\ le_dec s < 8388608) (fun _ => False).
Proof.
  assert (P : forall v, v < 16777216 -> (to_signed 24 v <? 0)%Z = negb (v <? 8388608)).
  { intros v H. unfold to_signed. change (2 ^ (24 - 1)) with 8388608. change (2 ^ Z.of_N 24)%Z with 16777216%Z. change (2 ^ 24) with 16777216. rewrite ?(N.mod_small v) by lia. destruct (N.ltb_spec v 8388608); cbn [negb]; lia. }
  split; [unfold parse_time; exb; [ex|]; destruct (_ <? _)%Z; ex|]. split; [|apply pans_safe; unfold parse_time; apply psafe_bind; [apply psafe_le; lia|intros; destruct (_ <? _)%Z; psl]].
  intros s. unfold parse_time. split.
  - intros (t & R). apply runs_bind_iff in R; [|ex|intros; destruct (_ <? _)%Z; ex]. destruct R as (s1 & s2 & v & -> & R1 & R2). apply runs_le_iff in R1; [|lia]. destruct R1 as [L ->].
    pose proof (le_dec_lt s1) as B. rewrite L in B. change (256 ^ N.of_nat 3) with 16777216 in B. rewrite (P _ B) in R2. destruct (N.ltb_spec (le_dec s1) 8388608); cbn [negb] in R2; [|now apply runs_fail_iff in R2].
    apply runs_ret_iff in R2. destruct R2 as [-> _]. rewrite app_nil_r. split; [lia|assumption].
  - intros [L V]. eexists. eapply runs_bind_last; [apply runs_le_iff; [lia|split; [lia|reflexivity]]|]. cbv beta. rewrite P by lia. destruct (N.ltb_spec (le_dec s) 8388608); [|lia]. apply runs_ret.
Qed.

(* ---- any cell ---- *)
Lemma frac_reads bl m k (s : list byte) : N.of_nat (length s) = k + frac_size m /\ ~ frac_risky bl m /\ True <-> N.of_nat (length s) = k + frac_size m /\ ~ frac_risky bl m.
Proof. tauto. Qed.
Lemma both_timestamp2 bl m : m < 65536 -> both (parse_timestamp2 bl m) (fun s => N.of_nat (length s) = 4 + frac_size m /\ ~ frac_risky bl m)
  (fun s => frac_risky bl m /\ 4 + (if m <=? 16 then frac_size m else 0) <= N.of_nat (length s)).
Proof.
  intros Hm. eapply both_conv; [unfold parse_timestamp2; apply (both_timed 4 (read_be 4) bl m (fun s f => lift (uadd u64max1 bl (s * 1000) (f / 1000))) (fun _ => True) (fun _ => True) Hm); [ex|apply psafe_be; lia|..]| |].
  - intros s v R. apply runs_be_iff in R; lia.
  - intros s L. exists (be_dec s). apply runs_be_iff; [lia|]. split; [lia|reflexivity].
  - intros. ex.
  - intros s v f R V. apply psafe_lift. apply runs_be_iff in R; [|lia]. destruct R as [L ->]. pose proof (be_dec_lt s) as B. rewrite L in B. change (256 ^ N.of_nat 4) with 4294967296 in B.
    rewrite uadd_ok; [exact I|]. unfold u64max1 in *. lia.
  - intros s v f z R V. apply runs_be_iff in R; [|lia]. destruct R as [L ->]. pose proof (be_dec_lt s) as B. rewrite L in B. change (256 ^ N.of_nat 4) with 4294967296 in B.
    split; [intros (w & R2); apply runs_lift_iff in R2; tauto|]. intros [-> _]. eexists. apply runs_lift_iff. split; [reflexivity|]. apply uadd_ok. unfold u64max1 in *. lia.
  - intros s. cbv beta. apply frac_reads.
  - intros s. reflexivity.
Qed.
Lemma both_date_time2 bl m : m < 65536 -> both (parse_date_time2 bl m) (fun s => N.of_nat (length s) = 5 + frac_size m /\ ~ frac_risky bl m)
  (fun s => frac_risky bl m /\ 5 + (if m <=? 16 then frac_size m else 0) <= N.of_nat (length s)).
Proof.
  intros Hm. eapply both_conv; [unfold parse_date_time2; cbv zeta; apply (both_timed 5 (read_uint_be 5) bl m (fun v f => ret _) (fun _ => True) (fun _ => True) Hm); [ex|apply psafe_uint_be; lia|..]| |].
  - intros s v R. apply runs_uint_be_iff in R. tauto.
  - intros s L. exists (be_dec s). apply runs_uint_be_iff. repeat split; lia.
  - intros. ex.
  - intros. psl.
  - intros s v f z R V. split; [intros (w & R2); apply runs_ret_iff in R2; tauto|]. intros [-> _]. eexists. apply runs_ret.
  - intros s. cbv beta. apply frac_reads.
  - intros s. reflexivity.
Qed.
Lemma both_time2 bl m : m < 65536 -> both (parse_time2 bl m) (fun s => N.of_nat (length s) = 3 + frac_size m /\ ~ frac_risky bl m /\ 8388608 <= be_dec (firstn 3 s))
  (fun s => frac_risky bl m /\ 3 + (if m <=? 16 then frac_size m else 0) <= N.of_nat (length s)).
Proof.
  intros Hm. unfold parse_time2. cbv zeta.
  apply (both_timed 3 (read_be 3) bl m (fun v f => if v / 2 ^ 23 mod 2 =? 0 then fail (EString negative_time) else ret _) (fun _ => True) (fun s => 8388608 <= be_dec s) Hm); [ex|apply psafe_be; lia|..].
  - intros s v R. apply runs_be_iff in R; lia.
  - intros s L. exists (be_dec s). apply runs_be_iff; [lia|]. split; [lia|reflexivity].
  - intros. destruct (_ =? _); ex.
  - intros. destruct (_ =? _); psl.
  - intros s v f z R V. apply runs_be_iff in R; [|lia]. destruct R as [L ->]. pose proof (be_dec_lt s) as B. rewrite L in B. change (256 ^ N.of_nat 3) with 16777216 in B.
    change (2 ^ 23) with 8388608. destruct (N.eqb_spec (be_dec s / 8388608 mod 2) 0) as [Z|Z]; split.
    + intros (w & R2). now apply runs_fail_iff in R2.
    + intros [_ G]. exfalso. lia.
    + intros (w & R2). apply runs_ret_iff in R2. split; [tauto|lia].
    + intros [-> _]. eexists. apply runs_ret.
Qed.
Lemma cell_exact bl ty m : m < 65536 -> takes (parse_cell bl ty m) (cell_reads bl ty m) /\ pans (parse_cell bl ty m) (cell_stops bl ty m).
Proof.
  intros Hm. destruct (coltype_from_code ty) as [ct|e| |] eqn:E.
  2: { assert (F : forall buf pos, parse_cell bl ty m buf pos = Err e) by (intros; unfold parse_cell; now rewrite E).
       assert (N : forall l, forallb (fun t => match coltype_from_code t with Ok _ => true | _ => false end) l = true -> has ty l = false).
       { intros l H. unfold has. destruct (existsb (N.eqb ty) l) eqn:X; [|reflexivity]. apply existsb_exists in X. destruct X as (t & I & Q). apply N.eqb_eq in Q. subst t.
         rewrite forallb_forall in H. specialize (H ty I). now rewrite E in H. }
       assert (N1 : forall t, (match coltype_from_code t with Ok _ => true | _ => false end) = true -> (ty =? t) = false).
       { intros t H. destruct (N.eqb_spec ty t) as [->|]; [|reflexivity]. now rewrite E in H. }
       split.
       - intros s. split; [intros (v & R); apply runs_here in R; rewrite F in R; discriminate|]. unfold cell_reads, blob_types. cbv zeta.
         rewrite !(fun l => N l), !(fun t => N1 t) by reflexivity. contradiction.
       - intros pre rest. rewrite F. split; [discriminate|]. unfold cell_stops, blob_types. rewrite !(fun l => N l) by reflexivity. intros R. exfalso. now apply (risky_unknown bl ty m e E). }
  2, 3: exfalso; revert E; unfold coltype_from_code; destruct (find _ _) as [[? ?]|]; discriminate.
  pose proof (coltype_is_known ty ct E) as K. unfold known_types in K. cbn [In] in K.
  repeat (destruct K as [K|K]; [subst ty; injection E as <-; first
    [ (* refused types *)
      split; [intros s; split; [intros (v & R); apply runs_here in R; discriminate|intros X; exfalso; exact X]|intros pre rest; split; [discriminate|intros X; exfalso; exact X]]
    | eapply both_cell; [intros buf pos; reflexivity|apply (both_le 1); lia|intros s; reflexivity|intros s; reflexivity]
    | eapply both_cell; [intros buf pos; reflexivity|apply (both_le 2); lia|intros s; reflexivity|intros s; reflexivity]
    | eapply both_cell; [intros buf pos; reflexivity|apply (both_le 3); lia|intros s; reflexivity|intros s; reflexivity]
    | eapply both_cell; [intros buf pos; reflexivity|apply (both_le 4); lia|intros s; reflexivity|intros s; reflexivity]
    | eapply both_cell; [intros buf pos; reflexivity|apply (both_le 8); lia|intros s; reflexivity|intros s; reflexivity]
    | eapply both_cell; [intros buf pos; reflexivity|apply both_map, (both_le 1); lia|intros s; reflexivity|intros s; reflexivity]
    | eapply both_cell; [intros buf pos; reflexivity|apply both_map, (both_le 3); lia|intros s; reflexivity|intros s; reflexivity]
    | eapply both_cell; [intros buf pos; reflexivity|apply both_map, (both_le 4); lia|intros s; reflexivity|intros s; reflexivity]
    | eapply both_cell; [intros buf pos; reflexivity|apply both_map, (both_le 8); lia|intros s; reflexivity|intros s; reflexivity]
    | eapply both_cell; [intros buf pos; reflexivity|apply both_time|intros s; reflexivity|intros s; reflexivity]
    | eapply both_cell; [intros buf pos; reflexivity|apply both_timestamp2, Hm|intros s; reflexivity|intros s; reflexivity]
    | eapply both_cell; [intros buf pos; reflexivity|apply both_date_time2, Hm|intros s; reflexivity|intros s; reflexivity]
    | eapply both_cell; [intros buf pos; reflexivity|apply both_time2, Hm|intros s; reflexivity|intros s; reflexivity]
    | eapply both_cell; [intros buf pos; reflexivity|apply both_string|intros s; reflexivity|intros s; reflexivity]
    | eapply both_cell; [intros buf pos; reflexivity|apply both_bit, Hm|intros s; reflexivity|intros s; reflexivity]
    | eapply both_cell; [intros buf pos; reflexivity|apply both_decimal, Hm|intros s; reflexivity|intros s; reflexivity]
    | eapply both_cell; [intros buf pos; reflexivity|apply both_uint|intros s; reflexivity|intros s; reflexivity]
    | eapply both_cell; [intros buf pos; reflexivity|apply both_blob|intros s; reflexivity|intros s; reflexivity]]|]).
  contradiction.
Qed.
