(* Exactly which payloads make the decoder panic. *)
From Verif Require Import Base.Tac Base.Bytes Base.Text Base.Res Base.Str Base.Parse Base.Loop Model.Codec Model.Values Model.Decimal Model.Cells
  Model.TableMap Model.Rows Model.Gtid Model.Events Spec.CodecSpec Spec.EventSpec Spec.CellSpec Spec.TableSpec Spec.SafeSpec Spec.StopSpec
  Proofs.CodecProofs Proofs.EventSafe Proofs.RowProofs Proofs.DecodeSafe Proofs.RiskProofs Proofs.OnceProofs.
Local Open Scope N_scope.

(* ---- the rest of the buffer decides ---- *)
Definition pans {A} (p : parser A) (X : list byte -> Prop) : Prop := forall pre rest, p (pre ++ rest) (length pre) = Panic <-> X rest.
Definition takes {A} (p : parser A) (R : list byte -> Prop) : Prop := forall s, (exists a, runs p s a) <-> R s.

Lemma pans_conv {A} (p : parser A) X Y : (forall r, X r <-> Y r) -> pans p X -> pans p Y.
Proof. intros E H pre rest. rewrite <- E. apply H. Qed.
Lemma pans_safe {A} (p : parser A) : psafe p -> pans p (fun _ => False).
Proof. intros H pre rest. split; [|contradiction]. intros E. exact (psafe_nopanic _ H _ _ E). Qed.
Lemma pans_eq {A} (p q : parser A) X : (forall buf pos, p buf pos = q buf pos) -> pans q X -> pans p X.
Proof. intros E H pre rest. rewrite E. apply H. Qed.
Lemma runs_here {A} (p : parser A) s a : runs p s a -> p s 0%nat = Ok (a, length s).
Proof. intros H. specialize (H [] []). cbn [app length] in H. now rewrite app_nil_r in H. Qed.
Lemma runs_uses {A} (p : parser A) : exactp p -> forall pre rest a q, p (pre ++ rest) (length pre) = Ok (a, q) ->
  exists used post, rest = used ++ post /\ runs p used a /\ q = length (pre ++ used).
Proof.
  intros H pre rest a q E. destruct (H _ _ _ _ E) as (pre' & bs & post & E2 & L & -> & R); [rewrite app_length; lia|].
  apply app_cut in E2; [|now symmetry]. destruct E2 as [<- ->]. exists bs, post. rewrite app_length. auto.
Qed.
Lemma pans_bind {A B} (p : parser A) (f : A -> parser B) X Y : exactp p -> pans p X -> (forall a, pans (f a) (Y a)) ->
  pans (pbind p f) (fun rest => X rest \/ exists used a post, rest = used ++ post /\ runs p used a /\ Y a post).
Proof.
  intros He Hp Hf pre rest. unfold pbind. specialize (Hp pre rest). split.
  - destruct (p (pre ++ rest) (length pre)) as [[a q]|e| |] eqn:E; try discriminate; [|intros _; left; now apply Hp].
    intros P. right. destruct (runs_uses p He _ _ _ _ E) as (used & post & -> & R & ->). exists used, a, post. split; [reflexivity|]. split; [exact R|].
    apply (Hf a (pre ++ used)). now rewrite <- app_assoc.
  - intros [X1|(used & a & post & -> & R & Y1)]; [apply Hp in X1; now rewrite X1|]. rewrite (R pre post). apply (Hf a (pre ++ used)) in Y1.
    rewrite <- app_assoc in Y1. rewrite <- app_length. exact Y1.
Qed.
Lemma runs_bind_iff {A B} (p : parser A) (f : A -> parser B) : exactp p -> (forall a, exactp (f a)) -> forall s v,
  runs (pbind p f) s v <-> exists s1 s2 a, s = s1 ++ s2 /\ runs p s1 a /\ runs (f a) s2 v.
Proof.
  intros Hp Hf s v. split.
  - intros R. apply runs_here in R. unfold pbind in R. destruct (p s 0%nat) as [[a q]|e| |] eqn:E; try discriminate.
    destruct (runs_uses p Hp [] s a q E) as (s1 & s2 & -> & R1 & ->). cbn [app] in R.
    destruct (runs_uses (f a) (Hf a) _ _ _ _ R) as (s3 & s4 & -> & R2 & L). rewrite !app_length in L. assert (s4 = []) as -> by (destruct s4; [reflexivity|cbn [length] in L; lia]).
    exists s1, s3, a. rewrite app_nil_r. auto.
  - intros (s1 & s2 & a & -> & R1 & R2). eapply runs_bind; eassumption.
Qed.
Lemma takes_conv {A} (p : parser A) X Y : (forall r, X r <-> Y r) -> takes p X -> takes p Y.
Proof. intros E H s. rewrite <- E. apply H. Qed.
Lemma takes_bind {A B} (p : parser A) (f : A -> parser B) Y : exactp p -> (forall a, exactp (f a)) -> (forall a, takes (f a) (Y a)) ->
  takes (pbind p f) (fun s => exists s1 s2 a, s = s1 ++ s2 /\ runs p s1 a /\ Y a s2).
Proof.
  intros Hp Hf Hy s. split.
  - intros (v & R). apply runs_bind_iff in R; [|assumption..]. destruct R as (s1 & s2 & a & -> & R1 & R2). exists s1, s2, a. split; [reflexivity|]. split; [exact R1|].
    apply Hy. now exists v.
  - intros (s1 & s2 & a & -> & R1 & R2). apply Hy in R2. destruct R2 as (v & R2). exists v. apply runs_bind_iff; [assumption..|]. now exists s1, s2, a.
Qed.
Lemma runs_ret_iff {A} (a v : A) s : runs (ret a) s v <-> s = [] /\ v = a.
Proof.
  split; [|intros [-> ->]; apply runs_ret]. intros R. apply runs_here in R. unfold ret in R. injection R as -> L. destruct s; [auto|discriminate].
Qed.
Lemma runs_lift_iff {A} (r : res A) v s : runs (lift r) s v <-> s = [] /\ r = Ok v.
Proof.
  split; [|intros [-> E]; now apply runs_lift]. intros R. apply runs_here in R. unfold lift in R. destruct r as [a|e| |]; try discriminate.
  injection R as -> L. destruct s; [auto|discriminate].
Qed.
Lemma runs_fail_iff {A} e (v : A) s : runs (fail e) s v <-> False.
Proof. split; [|contradiction]. intros R. apply runs_here in R. discriminate. Qed.
Lemma runs_panic_iff {A} (v : A) s : runs (fun _ _ => Panic) s v <-> False.
Proof. split; [|contradiction]. intros R. apply runs_here in R. discriminate. Qed.
Lemma runs_bytes_iff n s v : runs (read_bytes n) s v <-> v = s /\ N.of_nat (length s) = n /\ n <= isize_max.
Proof.
  split; [|intros (-> & L & M); now apply runs_read_bytes]. intros R. apply runs_here in R. unfold read_bytes, alloc in R.
  destruct (N.ltb_spec isize_max n); [discriminate|]. cbn [rbind] in R. destruct (N.ltb_spec (N.of_nat (length s - 0)) n); [discriminate|].
  injection R as <- L. cbn [skipn Nat.add] in *. split; [rewrite L; apply firstn_all|]. split; [lia|assumption].
Qed.
Lemma runs_le_iff k s v : (k <= 8)%nat -> runs (read_le k) s v <-> length s = k /\ v = le_dec s.
Proof.
  intros Hk. unfold read_le. rewrite runs_bind_iff by (intros; ex). split.
  - intros (s1 & s2 & a & -> & R1 & R2). apply runs_bytes_iff in R1. apply runs_ret_iff in R2. destruct R1 as (-> & L & _), R2 as [-> ->]. rewrite app_nil_r. split; [lia|reflexivity].
  - intros [L ->]. exists s, [], s. rewrite app_nil_r. split; [reflexivity|]. rewrite runs_bytes_iff, runs_ret_iff. unfold isize_max. repeat split; lia.
Qed.
Lemma runs_be_iff k s v : (k <= 8)%nat -> runs (read_be k) s v <-> length s = k /\ v = be_dec s.
Proof.
  intros Hk. unfold read_be. rewrite runs_bind_iff by (intros; ex). split.
  - intros (s1 & s2 & a & -> & R1 & R2). apply runs_bytes_iff in R1. apply runs_ret_iff in R2. destruct R1 as (-> & L & _), R2 as [-> ->]. rewrite app_nil_r. split; [lia|reflexivity].
  - intros [L ->]. exists s, [], s. rewrite app_nil_r. split; [reflexivity|]. rewrite runs_bytes_iff, runs_ret_iff. unfold isize_max. repeat split; lia.
Qed.
Lemma runs_uint_le_iff n s v : runs (read_uint_le n) s v <-> 1 <= n <= 8 /\ N.of_nat (length s) = n /\ v = le_dec s.
Proof.
  unfold read_uint_le. destruct (N.eqb_spec n 0); cbn [orb]; [rewrite runs_panic_iff; split; [contradiction|lia]|].
  destruct (N.ltb_spec 8 n); [rewrite runs_panic_iff; split; [contradiction|lia]|].
  rewrite <- (N2Nat.id n). change (bs <- read_bytes (N.of_nat (N.to_nat n)) ;; ret (le_dec bs)) with (read_le (N.to_nat n)). rewrite runs_le_iff by lia. intuition lia.
Qed.
Lemma runs_uint_be_iff n s v : runs (read_uint_be n) s v <-> 1 <= n <= 8 /\ N.of_nat (length s) = n /\ v = be_dec s.
Proof.
  unfold read_uint_be. destruct (N.eqb_spec n 0); cbn [orb]; [rewrite runs_panic_iff; split; [contradiction|lia]|].
  destruct (N.ltb_spec 8 n); [rewrite runs_panic_iff; split; [contradiction|lia]|].
  rewrite <- (N2Nat.id n). change (bs <- read_bytes (N.of_nat (N.to_nat n)) ;; ret (be_dec bs)) with (read_be (N.to_nat n)). rewrite runs_be_iff by lia. intuition lia.
Qed.
Lemma runs_lenenc_iff n s : runs read_len_enc_num s n <-> lenenc n s.
Proof.
  split; [|apply runs_lenenc]. intros R. apply runs_here in R. destruct (lenenc_inv _ _ _ _ R) as (bs & C & E & L). cbn [skipn Nat.add] in *.
  rewrite <- L, firstn_all in E. now subst s.
Qed.
Lemma utf8_text bs : (exists t, from_utf8 bs = Ok t) <-> is_text bs.
Proof.
  unfold from_utf8, is_text. split.
  - intros (t & E). destruct (utf8_decode bs) as [u|] eqn:D; [|discriminate]. injection E as ->. exists t. destruct (utf8_decode_sound _ _ D). auto.
  - intros (t & V & ->). exists t. now rewrite utf8_decode_encode.
Qed.
Lemma takes_string n : takes (read_string n) (fun s => N.of_nat (length s) = n /\ n <= isize_max /\ is_text s).
Proof.
  intros s. unfold read_string. split.
  - intros (t & R). apply runs_bind_iff in R; [|intros; ex..]. destruct R as (s1 & s2 & a & -> & R1 & R2). apply runs_bytes_iff in R1. apply runs_lift_iff in R2.
    destruct R1 as (-> & L & M), R2 as [-> E]. rewrite app_nil_r. split; [exact L|]. split; [exact M|]. apply utf8_text. now exists t.
  - intros (L & M & T). apply utf8_text in T. destruct T as (t & E). exists t. apply runs_bind_iff; [intros; ex..|]. exists s, [], s.
    rewrite app_nil_r. split; [reflexivity|]. split; [now apply runs_bytes_iff|now apply runs_lift_iff].
Qed.
Lemma exactp_len_str : exactp read_len_enc_str. Proof. unfold read_len_enc_str. exb; [apply exactp_lenenc|ex]. Qed.
Lemma takes_len_str : takes read_len_enc_str a_string.
Proof.
  eapply takes_conv; [|unfold read_len_enc_str; apply takes_bind; [apply exactp_lenenc|intros; ex|intros; apply takes_string]].
  intros s. cbv beta. unfold a_string. split.
  - intros (s1 & s2 & n & -> & R & L & M & T). apply runs_lenenc_iff in R. exists s1, s2. subst n. auto.
  - intros (c & x & -> & C & M & T). exists c, x, (N.of_nat (length x)). split; [reflexivity|]. split; [now apply runs_lenenc|]. auto.
Qed.
Lemma pans_bytes n : pans (read_bytes n) (fun _ => too_long n).
Proof.
  intros pre rest. unfold read_bytes, alloc, too_long. change 9223372036854775807 with isize_max. destruct (N.ltb_spec isize_max n).
  - split; [auto|reflexivity].
  - cbn [rbind]. destruct (_ <? _); split; try discriminate; lia.
Qed.
Lemma pans_lift {A} (r : res A) : pans (lift r) (fun _ => r = Panic).
Proof. intros pre rest. unfold lift. destruct r; split; discriminate || reflexivity. Qed.
Lemma pans_panic {A} : pans (fun _ _ => @Panic (A * nat)) (fun _ => True).
Proof. intros pre rest. split; auto. Qed.
Lemma from_utf8_nopanic bs : from_utf8 bs <> Panic. Proof. unfold from_utf8. destruct (utf8_decode bs); discriminate. Qed.
Lemma pans_string n : pans (read_string n) (fun _ => too_long n).
Proof.
  eapply pans_conv; [|unfold read_string; apply pans_bind; [ex|apply pans_bytes|intros; apply pans_lift]]. intros r. cbv beta. split; [|auto].
  intros [H|(u & a & post & _ & _ & E)]; [exact H|]. now apply from_utf8_nopanic in E.
Qed.
Lemma pans_len_str : pans read_len_enc_str starts_too_long.
Proof.
  eapply pans_conv; [|unfold read_len_enc_str; apply pans_bind; [apply exactp_lenenc|apply pans_safe, psafe_lenenc|intros; apply pans_string]].
  intros r. cbv beta. unfold starts_too_long. split.
  - intros [[]|(u & n & post & -> & R & T)]. apply runs_lenenc_iff in R. exists n, u, post. auto.
  - intros (n & c & post & -> & C & T). right. exists c, n, post. split; [reflexivity|]. split; [now apply runs_lenenc|exact T].
Qed.

(* ---- loops ---- *)
Lemma pwhile_aux_breaks {A} (p : parser A) X R : exactp p -> pans p X -> takes p R -> forall fuel pre rest, (length rest < fuel)%nat ->
  pwhile_aux fuel p (pre ++ rest) (length pre) = Panic <-> breaks R X rest.
Proof.
  intros He Hp Ht. induction fuel as [|f IH]; intros pre rest L; [lia|]. cbn [pwhile_aux].
  destruct (Nat.ltb_spec (length pre) (length (pre ++ rest))) as [G|G].
  2: { rewrite app_length in G. assert (rest = []) as -> by (destruct rest; [reflexivity|cbn [length] in G; lia]). split; [discriminate|].
       intros (g & t & E & _ & N & _). symmetry in E. apply app_eq_nil in E. destruct E as [_ ->]. congruence. }
  assert (Ne : rest <> []) by (intros ->; rewrite app_length in G; cbn [length] in G; lia).
  unfold pbind. specialize (Hp pre rest). split.
  - destruct (p (pre ++ rest) (length pre)) as [[a q]|e| |] eqn:E; try discriminate.
    + destruct (runs_uses p He _ _ _ _ E) as (used & post & -> & Ru & ->). intros W.
      destruct (list_eq_dec Byte.byte_eq_dec used []) as [->|Nu].
      * exfalso. rewrite app_nil_r in W. cbn [app] in *. clear IH. revert W. rewrite app_nil_r in E. clear L Hp. generalize dependent f. clear -E G.
        intros f. induction f as [|f IH]; cbn [pwhile_aux].
        { destruct (_ <? _)%nat; discriminate. }
        destruct (_ <? _)%nat; [|discriminate]. unfold pbind. rewrite E. destruct (pwhile_aux f p (pre ++ post) (length pre)) as [[xs q]|e| |]; try discriminate.
        intros _. now apply IH.
      * assert (W2 : pwhile_aux f p ((pre ++ used) ++ post) (length (pre ++ used)) = Panic).
        { rewrite <- app_assoc. destruct (pwhile_aux f p (pre ++ used ++ post) (length (pre ++ used))) as [[xs q]|e| |]; try discriminate. reflexivity. }
        apply IH in W2; [|rewrite app_length in L; destruct used; [congruence|cbn [length] in L; lia]].
        destruct W2 as (g & t & -> & (ps & -> & F) & Nt & Xt). exists (concat (used :: ps)), t. cbn [concat]. rewrite <- app_assoc. split; [reflexivity|].
        split; [exists (used :: ps); split; [reflexivity|]; apply Forall_cons; [|exact F]; split; [exact Nu|]; apply Ht; now exists a|]. auto.
    + intros _. exists [], rest. split; [reflexivity|]. split; [exists []; split; [reflexivity|constructor]|]. split; [exact Ne|now apply Hp].
  - intros (g & t & -> & (ps & -> & F) & Nt & Xt). destruct ps as [|s ps].
    + cbn [concat app] in *. apply Hp in Xt. now rewrite Xt.
    + inversion F as [|? ? [Ns Rs] F']; subst. apply Ht in Rs. destruct Rs as (a & Rs). cbn [concat] in *. rewrite <- !app_assoc in *. rewrite (Rs pre _).
      assert (W2 : pwhile_aux f p ((pre ++ s) ++ concat ps ++ t) (length (pre ++ s)) = Panic).
      { apply IH; [rewrite !app_length in *; destruct s; [congruence|cbn [length] in L; lia]|]. exists (concat ps), t. split; [reflexivity|]. split; [now exists ps|]. auto. }
      rewrite <- app_assoc, app_length in W2. now rewrite W2.
Qed.
Lemma pans_pwhile {A} (p : parser A) X R : exactp p -> pans p X -> takes p R -> pans (pwhile p) (breaks R X).
Proof. intros He Hp Ht pre rest. unfold pwhile. apply pwhile_aux_breaks; auto. rewrite app_length. lia. Qed.
Lemma pwhile_chain {A} (p : parser A) R : exactp p -> takes p R -> forall bs, (exists xs q, pwhile p bs 0%nat = Ok (xs, q)) <-> chain R bs.
Proof.
  intros He Ht bs. split.
  - intros (xs & q & E). destruct (pwhile_nonempty p He _ _ _ _ E) as (segs & S & F); [lia|]. cbn [skipn] in S. exists segs. split; [exact S|].
    clear -F Ht. induction F as [|s x segs xs [N Rs] F IH]; constructor; [|exact IH]. split; [exact N|]. apply Ht. now exists x.
  - intros (ps & -> & F). assert (G : exists l, map fst l = ps /\ Forall (fun x : list byte * A => fst x <> [] /\ runs p (fst x) (snd x)) l).
    { clear -F Ht. induction F as [|s ps [N Rs] F IH]; [exists []; split; [reflexivity|constructor]|]. destruct IH as (l & <- & Fl). apply Ht in Rs. destruct Rs as (a & Rs).
      exists ((s, a) :: l). split; [reflexivity|]. constructor; [split; [exact N|exact Rs]|exact Fl]. }
    destruct G as (l & <- & G). pose proof (pwhile_runs p fst snd l G []) as W. cbn [app length] in W. rewrite flat_map_concat_map in W. do 2 eexists. exact W.
Qed.
Lemma prepeat_breaks {A} (p : parser A) X R : exactp p -> pans p X -> takes p R -> forall k pre rest,
  prepeat k p (pre ++ rest) (length pre) = Panic <-> breaks_in (N.of_nat k) R X rest.
Proof.
  intros He Hp Ht. induction k as [|k IH]; intros pre rest; cbn [prepeat].
  { split; [discriminate|]. intros (j & g & t & _ & L & _). lia. }
  unfold pbind. specialize (Hp pre rest). split.
  - destruct (p (pre ++ rest) (length pre)) as [[a q]|e| |] eqn:E; try discriminate.
    + destruct (runs_uses p He _ _ _ _ E) as (used & post & -> & Ru & ->). intros W.
      assert (W2 : prepeat k p ((pre ++ used) ++ post) (length (pre ++ used)) = Panic).
      { rewrite <- app_assoc. destruct (prepeat k p (pre ++ used ++ post) (length (pre ++ used))) as [[xs q]|e| |]; try discriminate. reflexivity. }
      apply IH in W2. destruct W2 as (j & g & t & -> & L & (ps & -> & Lp & F) & Xt). exists (j + 1), (concat (used :: ps)), t. cbn [concat]. rewrite <- app_assoc. split; [reflexivity|].
      split; [lia|]. split; [|exact Xt]. exists (used :: ps). split; [reflexivity|]. split; [cbn [length]; lia|]. apply Forall_cons; [|exact F]. apply Ht. now exists a.
    + intros _. exists 0, [], rest. split; [reflexivity|]. split; [lia|]. split; [exists []; repeat split; constructor|now apply Hp].
  - intros (j & g & t & -> & L & (ps & -> & Lp & F) & Xt). destruct ps as [|s ps].
    + cbn [concat app] in *. apply Hp in Xt. now rewrite Xt.
    + inversion F as [|? ? Rs F']; subst. apply Ht in Rs. destruct Rs as (a & Rs). cbn [concat] in *. rewrite <- !app_assoc in *. rewrite (Rs pre _).
      assert (W2 : prepeat k p ((pre ++ s) ++ concat ps ++ t) (length (pre ++ s)) = Panic).
      { apply IH. exists (N.of_nat (length ps)), (concat ps), t. split; [reflexivity|]. cbn [length] in L. split; [lia|]. split; [now exists ps|]. exact Xt. }
      rewrite <- app_assoc, app_length in W2. now rewrite W2.
Qed.
Lemma pans_ploop {A} n (p : parser A) X R : exactp p -> pans p X -> takes p R -> advances 1 p -> bounded p -> pans (ploop n p) (breaks_in n R X).
Proof. intros He Hp Ht Ha Hb pre rest. rewrite ploop_prepeat by assumption. rewrite (prepeat_breaks p X R He Hp Ht). now rewrite N2Nat.id. Qed.
Lemma exactp_prepeat {A} k (p : parser A) : exactp p -> exactp (prepeat k p).
Proof. intros H. induction k as [|k IH]; cbn [prepeat]; [ex|]. exb; [exact H|]. exb; [exact IH|ex]. Qed.
Lemma exactp_ploop {A} n (p : parser A) : exactp p -> advances 1 p -> bounded p -> exactp (ploop n p).
Proof.
  intros He Ha Hb buf pos a q E L. rewrite ploop_prepeat in E by assumption. destruct (exactp_prepeat _ p He _ _ _ _ E L) as (pre & bs & post & X1 & X2 & X3 & R).
  exists pre, bs, post. repeat (split; [assumption|]). intros pre' post'. rewrite ploop_prepeat by assumption. apply R.
Qed.
Lemma takes_ploop {A} n (p : parser A) R : exactp p -> takes p R -> advances 1 p -> bounded p -> takes (ploop n p) (times n R).
Proof.
  intros He Ht Ha Hb. assert (G : forall k, takes (prepeat k p) (times (N.of_nat k) R)).
  { induction k as [|k IH]; cbn [prepeat].
    - intros s. split.
      + intros (a & Ra). apply runs_ret_iff in Ra. destruct Ra as [-> _]. exists []. repeat split; constructor.
      + intros (ps & -> & L & _). destruct ps; [|discriminate]. exists []. apply runs_ret.
    - eapply takes_conv; [|apply takes_bind; [exact He|intros; exb; [now apply exactp_prepeat|ex]|intros a; apply takes_bind; [now apply exactp_prepeat|intros; ex|intros b s; apply (iff_refl _)]]].
      intros s. cbv beta. split.
      + intros (s1 & s2 & a & -> & R1 & s3 & s4 & xs & -> & R2 & (y & R3)). apply runs_ret_iff in R3. destruct R3 as [-> _]. rewrite app_nil_r.
        assert (T : times (N.of_nat k) R s3) by (apply IH; now exists xs). destruct T as (ps & -> & L & F). exists (s1 :: ps). split; [reflexivity|].
        split; [cbn [length]; lia|]. constructor; [apply Ht; now exists a|exact F].
      + intros (ps & -> & L & F). destruct ps as [|s1 ps]; [discriminate L|]. inversion F as [|? ? R1 F']; subst. apply Ht in R1. destruct R1 as (a & R1).
        assert (T : times (N.of_nat k) R (concat ps)) by (exists ps; split; [reflexivity|]; split; [cbn [length] in L; lia|exact F']). apply IH in T. destruct T as (xs & R2).
        exists s1, (concat ps), a. split; [reflexivity|]. split; [exact R1|]. exists (concat ps), [], xs. rewrite app_nil_r. split; [reflexivity|]. split; [exact R2|]. eexists. apply runs_ret. }
  intros s. specialize (G (N.to_nat n) s). rewrite N2Nat.id in G. rewrite <- G. split; intros (a & Ra); exists a; intros pre post; [rewrite <- ploop_prepeat by assumption|rewrite ploop_prepeat by assumption]; apply Ra.
Qed.

(* ---- previous GTIDs ---- *)
Lemma le_bytes k s : length s = k -> s = le_enc k (le_dec s).
Proof. intros <-. symmetry. apply le_enc_dec. Qed.
Lemma runs_u64_iff s v : runs read_u64 s v <-> u64 v /\ s = le_enc 8 v.
Proof.
  unfold read_u64. rewrite runs_le_iff by lia. split.
  - intros [L ->]. split; [|now apply le_bytes]. pose proof (le_dec_lt s) as X. rewrite L in X. exact X.
  - intros [U ->]. split; [apply le_enc_length|]. symmetry. apply le_dec_enc_small. exact U.
Qed.
Lemma pans_le k : (k <= 8)%nat -> pans (read_le k) (fun _ => False). Proof. intros H. now apply pans_safe, psafe_le. Qed.
Lemma exactp_interval bl : exactp (prev_interval bl). Proof. unfold prev_interval. exb; [ex|]. exb; [ex|]. exb; ex. Qed.
Lemma takes_interval : takes (prev_interval Debug) ended.
Proof.
  intros s. unfold prev_interval. split.
  - intros (v & R). apply runs_bind_iff in R; [|intros; repeat (exb; [ex|]); ex..]. destruct R as (s1 & s2 & st & -> & R1 & R).
    apply runs_bind_iff in R; [|intros; repeat (exb; [ex|]); ex..]. destruct R as (s3 & s4 & e & -> & R2 & R).
    apply runs_bind_iff in R; [|intros; ex..]. destruct R as (s5 & s6 & e1 & -> & R3 & R4). apply runs_lift_iff in R3. apply runs_ret_iff in R4. destruct R3 as [-> R3], R4 as [-> _].
    apply runs_u64_iff in R2. destruct R2 as [U ->]. apply runs_le_iff in R1; [|lia]. exists s1, e. rewrite app_nil_r. split; [reflexivity|]. split; [apply R1|].
    unfold usub in R3. destruct (N.leb_spec 1 e); [|discriminate]. unfold u64 in U. lia.
  - intros (st & e & -> & L & E). eexists. apply runs_bind_iff; [intros; repeat (exb; [ex|]); ex..|]. exists st, (le_enc 8 e), (le_dec st). split; [reflexivity|].
    split; [now apply runs_le_iff|]. apply runs_bind_iff; [intros; repeat (exb; [ex|]); ex..|]. exists (le_enc 8 e), [], e. rewrite app_nil_r. split; [reflexivity|].
    split; [apply runs_u64_iff; split; [apply E|reflexivity]|]. apply runs_bind_iff; [intros; ex..|]. exists [], [], (e - 1). split; [reflexivity|].
    split; [apply runs_lift_iff; split; [reflexivity|]|apply runs_ret]. unfold usub. destruct (N.leb_spec 1 e); [reflexivity|lia].
Qed.
Lemma pans_interval : pans (prev_interval Debug) ends_at_zero.
Proof.
  eapply pans_conv; [|unfold prev_interval; apply pans_bind; [ex|apply pans_le; lia|intros st; apply pans_bind; [ex|apply pans_le; lia|intros e; apply pans_bind; [ex|apply pans_lift|intros; apply pans_safe, psafe_ret]]]].
  intros r. cbv beta. unfold ends_at_zero. split.
  - intros [[]|(s1 & st & post & -> & R1 & [[]|(s2 & e & post2 & -> & R2 & [E|(? & ? & ? & _ & _ & [])])])].
    apply runs_le_iff in R1; [|lia]. apply runs_u64_iff in R2. destruct R2 as [U ->]. exists s1, post2. split; [|apply R1].
    unfold usub in E. destruct (N.leb_spec 1 e); [discriminate|]. replace e with 0 by lia. reflexivity.
  - intros (st & rest & -> & L). right. exists st, (le_dec st), (le_enc 8 0 ++ rest). split; [reflexivity|]. split; [now apply runs_le_iff|].
    right. exists (le_enc 8 0), 0, rest. split; [reflexivity|]. split; [apply runs_u64_iff; split; [unfold u64; lia|reflexivity]|]. left. reflexivity.
Qed.
Lemma adv_interval bl : advances 1 (prev_interval bl).
Proof. unfold prev_interval. apply (advances_bind 1 0); [apply adv_le; lia|]. intros. repeat (apply adv0_bind; [first [apply adv_le; lia|apply advances_lift]|intros]). apply advances_ret. Qed.
Lemma bounded_interval bl : bounded (prev_interval bl).
Proof. unfold prev_interval. apply bounded_bind; [apply bounded_read_le; lia|]. intros. apply keeps_bind; [apply keeps_read_le|intros]. apply keeps_bind; [apply keeps_lift|intros]. apply keeps_ret. Qed.
Lemma exactp_intervals bl n : exactp (ploop n (prev_interval bl)).
Proof. apply exactp_ploop; [apply exactp_interval|apply adv_interval|apply bounded_interval]. Qed.
Lemma exactp_entry bl : exactp (prev_uuid_set bl).
Proof. unfold prev_uuid_set. exb; [ex|]. exb; [ex|]. exb; [apply exactp_intervals|ex]. Qed.
Lemma takes_entry : takes (prev_uuid_set Debug) server_entry.
Proof.
  intros s. unfold prev_uuid_set. split.
  - intros (v & R). apply runs_bind_iff in R; [|ex|intros; exb; [ex|intros; exb; [apply exactp_intervals|ex]]]. destruct R as (s1 & s2 & st & -> & R1 & R).
    apply runs_bind_iff in R; [|ex|intros; exb; [apply exactp_intervals|ex]]. destruct R as (s3 & s4 & n & -> & R2 & R).
    apply runs_bind_iff in R; [|apply exactp_intervals|intros; ex]. destruct R as (s5 & s6 & xs & -> & R3 & R4). apply runs_ret_iff in R4. destruct R4 as [-> _].
    apply runs_bytes_iff in R1. destruct R1 as (-> & L & _). apply runs_u64_iff in R2. destruct R2 as [U ->]. exists s1, n, s5. rewrite app_nil_r. split; [reflexivity|]. split; [lia|]. split; [exact U|].
    apply (takes_ploop n (prev_interval Debug) ended (exactp_interval _) takes_interval (adv_interval _) (bounded_interval _)). now exists xs.
  - intros (sv & n & ivs & -> & L & U & T). apply (takes_ploop n (prev_interval Debug) ended (exactp_interval _) takes_interval (adv_interval _) (bounded_interval _)) in T. destruct T as (xs & T).
    eexists. apply runs_bind_iff; [ex|intros; exb; [ex|intros; exb; [apply exactp_intervals|ex]]|]. exists sv, (le_enc 8 n ++ ivs), sv. split; [reflexivity|].
    split; [apply runs_bytes_iff; unfold isize_max; repeat split; lia|]. apply runs_bind_iff; [ex|intros; exb; [apply exactp_intervals|ex]|]. exists (le_enc 8 n), ivs, n. split; [reflexivity|].
    split; [apply runs_u64_iff; auto|]. apply runs_bind_iff; [apply exactp_intervals|intros; ex|]. exists ivs, [], xs. rewrite app_nil_r. split; [reflexivity|]. split; [exact T|apply runs_ret].
Qed.
Lemma pans_entry : pans (prev_uuid_set Debug) entry_stops.
Proof.
  eapply pans_conv; [|unfold prev_uuid_set; apply pans_bind; [ex|apply pans_bytes|intros st; apply pans_bind; [ex|apply pans_le; lia|intros n; apply pans_bind; [apply exactp_intervals
    |apply (pans_ploop n (prev_interval Debug) ends_at_zero ended); [apply exactp_interval|apply pans_interval|apply takes_interval|apply adv_interval|apply bounded_interval]
    |intros; apply pans_safe, psafe_ret]]]].
  intros r. cbv beta. unfold entry_stops. split.
  - intros [T|(s1 & st & post & -> & R1 & [[]|(s2 & n & post2 & -> & R2 & [B|(? & ? & ? & _ & _ & [])])])]; [unfold too_long in T; lia|].
    apply runs_bytes_iff in R1. apply runs_u64_iff in R2. destruct R2 as [U ->]. exists s1, n, post2. split; [reflexivity|]. split; [lia|]. auto.
  - intros (sv & n & ivs & -> & L & U & B). right. exists sv, sv, (le_enc 8 n ++ ivs). split; [reflexivity|]. split; [apply runs_bytes_iff; unfold isize_max; repeat split; lia|].
    right. exists (le_enc 8 n), n, ivs. split; [reflexivity|]. split; [apply runs_u64_iff; auto|]. now left.
Qed.
Lemma adv_entry bl : advances 1 (prev_uuid_set bl).
Proof.
  unfold prev_uuid_set. apply (advances_bind 1 0); [eapply advances_weaken; [|apply advances_read_bytes]; lia|]. intros. apply adv0_bind; [apply adv_le; lia|intros].
  apply adv0_bind; [|intros; apply advances_ret]. apply advances_ploop. eapply advances_weaken; [|apply adv_interval]. lia.
Qed.
Lemma bounded_entry bl : bounded (prev_uuid_set bl).
Proof.
  unfold prev_uuid_set. apply bounded_bind; [apply bounded_read_bytes; lia|]. intros. apply keeps_bind; [apply keeps_read_le|intros]. apply keeps_bind; [|intros; apply keeps_ret].
  apply keeps_ploop, bounded_keeps, bounded_interval.
Qed.
Theorem previous_panics payload : parse_prev_gtids Debug payload 0%nat = Panic <-> previous_stops payload.
Proof.
  assert (P : pans (parse_prev_gtids Debug) previous_stops); [|exact (P [] payload)].
  eapply pans_conv; [|unfold parse_prev_gtids; apply pans_bind; [ex|apply pans_le; lia|intros n; apply pans_bind; [apply exactp_ploop; [apply exactp_entry|apply adv_entry|apply bounded_entry]
    |apply (pans_ploop n (prev_uuid_set Debug) entry_stops server_entry); [apply exactp_entry|apply pans_entry|apply takes_entry|apply adv_entry|apply bounded_entry]
    |intros; apply pans_safe, psafe_ret]]].
  intros r. cbv beta. unfold previous_stops. split.
  - intros [[]|(s & n & post & -> & R & [B|(? & ? & ? & _ & _ & [])])]. apply runs_u64_iff in R. destruct R as [U ->]. now exists n, post.
  - intros (n & es & -> & U & B). right. exists (le_enc 8 n), n, es. split; [reflexivity|]. split; [apply runs_u64_iff; auto|now left].
Qed.

(* ---- format descriptions ---- *)
Lemma seek_here d buf pos : (0 <= d)%Z -> seek_cur d buf pos = Ok (tt, (pos + Z.to_nat d)%nat).
Proof. intros H. unfold seek_cur. destruct (Z.ltb_spec (Z.of_nat pos + d) 0); [lia|]. f_equal. f_equal. lia. Qed.
Lemma read_short k buf pos : (k <= 8)%nat -> (length buf < pos + k)%nat -> (0 < k)%nat -> read_le k buf pos = Err (EIo UnexpectedEof).
Proof.
  intros Hk L P. unfold read_le, pbind, read_bytes, rbind, alloc. destruct (N.ltb_spec isize_max (N.of_nat k)); [unfold isize_max in *; lia|].
  destruct (N.ltb_spec (N.of_nat (length buf - pos)) (N.of_nat k)); [reflexivity|lia].
Qed.
Theorem format_panics h payload : parse_format_description Debug h payload 0%nat = Panic <-> format_stops (h_length h) payload.
Proof.
  unfold format_stops. destruct (N.le_gt_cases 19 (h_length h mod 256)) as [G|G].
  { split; [|lia]. intros E. exfalso. revert E. apply (psafe_nopanic _ (psafe_format Debug h (or_intror G))). }
  unfold parse_format_description. destruct (Nat.lt_ge_cases (length payload) 2) as [L|L].
  { unfold pbind at 1. unfold read_u16. rewrite read_short by lia. split; [discriminate|lia]. }
  unfold pbind at 1. unfold read_u16. rewrite read_le_ok by lia. unfold pbind at 1, read_bytes. rewrite alloc_ok by (unfold isize_max; lia). cbn [rbind].
  destruct (N.ltb_spec (N.of_nat (length payload - (0 + 2))) 50); [split; [discriminate|lia]|].
  change (N.to_nat 50) with 50%nat. change (0 + 2)%nat with 2%nat. set (sv := firstn 50 (skipn 2 payload)). unfold pbind at 1, lift at 1.
  destruct (utf8_decode (before_nul sv)) as [t|] eqn:D.
  2: { split; [discriminate|]. intros (_ & _ & t & V & E). rewrite E, (utf8_decode_encode _ V) in D. discriminate. }
  unfold pbind at 1. rewrite seek_here by lia. unfold pbind at 1. rewrite seek_here by lia. change (2 + 50 + Z.to_nat 5 + Z.to_nat 14)%nat with 71%nat.
  unfold pbind at 1, read_u8 at 1. destruct (Nat.lt_ge_cases (length payload) 72) as [K|K].
  { rewrite read_short by lia. split; [discriminate|lia]. }
  rewrite read_le_ok by lia. unfold pbind at 1, lift at 1, usub. destruct (N.leb_spec 19 (h_length h mod 256)); [lia|].
  split; [intros _|reflexivity]. split; [exact G|]. split; [exact K|]. apply utf8_decode_sound in D. exists t. intuition congruence.
Qed.

(* ---- table maps: the fields ---- *)
Lemma takes_int {A} (g : N -> A) : takes (n <- read_len_enc_num ;; ret (g n)) an_int.
Proof.
  intros s. unfold an_int. split.
  - intros (v & R). apply runs_bind_iff in R; [|apply exactp_lenenc|intros; ex]. destruct R as (s1 & s2 & n & -> & R1 & R2). apply runs_ret_iff in R2. destruct R2 as [-> _].
    rewrite app_nil_r. exists n. now apply runs_lenenc_iff.
  - intros (n & C). exists (g n). eapply runs_bind_last; [apply runs_lenenc; exact C|apply runs_ret].
Qed.
Lemma takes_two_ints {A} (g : N -> N -> A) : takes (k <- read_len_enc_num ;; v <- read_len_enc_num ;; ret (g k v)) two_ints.
Proof.
  eapply takes_conv; [|apply takes_bind; [apply exactp_lenenc|intros; exb; [apply exactp_lenenc|ex]|intros; apply takes_int]].
  intros s. cbv beta. unfold two_ints. split.
  - intros (s1 & s2 & n & -> & R1 & R2). exists s1, s2. split; [reflexivity|]. split; [|exact R2]. exists n. now apply runs_lenenc_iff.
  - intros (s1 & s2 & -> & (n & C) & R2). exists s1, s2, n. split; [reflexivity|]. split; [now apply runs_lenenc|exact R2].
Qed.
Lemma exactp_strings : exactp (n <- read_len_enc_num ;; ploop n read_len_enc_str).
Proof. exb; [apply exactp_lenenc|]. apply exactp_ploop; [apply exactp_len_str|apply adv_len_str|apply bounded_len_str]. Qed.
Lemma takes_strings : takes (n <- read_len_enc_num ;; ploop n read_len_enc_str) some_strings.
Proof.
  eapply takes_conv; [|apply takes_bind; [apply exactp_lenenc|intros; apply exactp_ploop; [apply exactp_len_str|apply adv_len_str|apply bounded_len_str]
    |intros n; apply (takes_ploop n read_len_enc_str a_string); [apply exactp_len_str|apply takes_len_str|apply adv_len_str|apply bounded_len_str]]].
  intros s. cbv beta. unfold some_strings. split.
  - intros (s1 & s2 & n & -> & R1 & R2). exists n, s1, s2. split; [reflexivity|]. split; [|exact R2]. now apply runs_lenenc_iff.
  - intros (n & s1 & s2 & -> & C & R2). exists s1, s2, n. split; [reflexivity|]. split; [now apply runs_lenenc|exact R2].
Qed.
Lemma pans_strings : pans (n <- read_len_enc_num ;; ploop n read_len_enc_str) strings_stop.
Proof.
  eapply pans_conv; [|apply pans_bind; [apply exactp_lenenc|apply pans_safe, psafe_lenenc
    |intros n; apply (pans_ploop n read_len_enc_str starts_too_long a_string); [apply exactp_len_str|apply pans_len_str|apply takes_len_str|apply adv_len_str|apply bounded_len_str]]].
  intros s. cbv beta. unfold strings_stop. split.
  - intros [[]|(s1 & n & s2 & -> & R1 & R2)]. exists n, s1, s2. split; [reflexivity|]. split; [|exact R2]. now apply runs_lenenc_iff.
  - intros (n & s1 & s2 & -> & C & R2). right. exists s1, n, s2. split; [reflexivity|]. split; [now apply runs_lenenc|exact R2].
Qed.
Definition squash {A} (r : res (A * nat)) : res unit := match r with Ok _ => Ok tt | Err e => Err e | Panic => Panic | Diverge => Diverge end.
Lemma squash_ok {A} (r : res (A * nat)) : squash r = Ok tt <-> exists a q, r = Ok (a, q).
Proof. destruct r as [[a q]|e| |]; cbn [squash]; split; try discriminate; try (intros (? & ? & ?); discriminate); [intros _; now exists a, q|reflexivity]. Qed.
Lemma squash_panic {A} (r : res (A * nat)) : squash r = Panic <-> r = Panic.
Proof. destruct r as [[a q]|e| |]; cbn [squash]; split; discriminate || reflexivity. Qed.
Definition content_res (types : list N) (code : N) (bs : list byte) : res unit :=
  if code =? 1 then (match numeric_count types with Ok n => squash (read_bitmap_reverted n bs 0%nat) | Err e => Err e | Panic => Panic | Diverge => Diverge end)
  else if code =? 12 then squash (read_bitmap_reverted (N.of_nat (length types)) bs 0%nat)
  else if has code [2; 10] then squash (parse_default_charset bs 0%nat)
  else if has code [3; 7; 8; 11] then squash (parse_int_array bs 0%nat)
  else if code =? 4 then squash (parse_string_array bs 0%nat)
  else if has code [5; 6] then squash (parse_type_values bs 0%nat)
  else squash (parse_int_map bs 0%nat).
Definition field_skel (types : list N) : parser unit :=
  code <- read_u8 ;;
  (if (1 <=? code) && (code <=? 12) then ret tt else fail (EString (unknown_metadata code))) ;;;
  len <- read_len_enc_num ;;
  bs <- read_bytes len ;;
  lift (content_res types code bs).
Definition keep_pos {A} (r : res (A * nat)) : res (unit * nat) := match r with Ok (_, q) => Ok (tt, q) | Err e => Err e | Panic => Panic | Diverge => Diverge end.
Lemma keep_bind {A B} (p : parser A) (f : A -> parser B) g buf pos : (forall a q, p buf pos = Ok (a, q) -> keep_pos (f a buf q) = g a buf q) -> keep_pos (pbind p f buf pos) = pbind p g buf pos.
Proof. intros H. unfold pbind. destruct (p buf pos) as [[a q]|e| |]; try reflexivity. now apply H. Qed.
Lemma field_skel_eq types m buf pos : keep_pos (metadata_field types m buf pos) = field_skel types buf pos.
Proof.
  unfold metadata_field, field_skel. apply keep_bind. intros code q _. apply keep_bind. intros u q1 B. apply keep_bind. intros len q2 _. apply keep_bind. intros bs q3 _.
  destruct m as [f1 f2 f3 f4 f5 f6 f7 f8 f9 f10 f11 f12]. destruct ((1 <=? code) && (code <=? 12)) eqn:C; [clear B|discriminate B].
  apply andb_prop in C. destruct C as [B1 B2]. apply N.leb_le in B1, B2.
  assert (C : code = 1 \/ code = 2 \/ code = 3 \/ code = 4 \/ code = 5 \/ code = 6 \/ code = 7 \/ code = 8 \/ code = 9 \/ code = 10 \/ code = 11 \/ code = 12 \/ False) by lia.
  unfold content_res.
  repeat (destruct C as [C|C]; [subst code; cbn [N.eqb Pos.eqb has existsb orb]; unfold pbind, on_buffer, lift;
    try (destruct (numeric_count types) as [n|e| |]; try reflexivity);
    match goal with |- context [squash (?p bs 0%nat)] => destruct (p bs 0%nat) as [[? ?]|?| |]; reflexivity end|]). contradiction.
Qed.
Lemma loop_skel types buf : forall fuel m pos, metadata_loop fuel types m buf pos = Panic <-> pwhile_aux fuel (field_skel types) buf pos = Panic.
Proof.
  induction fuel as [|f IH]; intros m pos; cbn [metadata_loop pwhile_aux]; destruct (_ <? _)%nat; try (split; discriminate).
  unfold pbind at 1 2. rewrite <- (field_skel_eq types m). destruct (metadata_field types m buf pos) as [[m' q]|e| |]; cbn [keep_pos]; try (split; discriminate || reflexivity).
  rewrite (IH m' q). unfold pbind. destruct (pwhile_aux f (field_skel types) buf q) as [[xs q1]|e| |]; split; discriminate || reflexivity.
Qed.
Lemma known_coltype t : In t known_types -> exists ct, coltype_from_code t = Ok ct /\ is_numeric ct = has t numeric_types.
Proof. intros H. unfold known_types in H. cbn [In] in H. repeat (destruct H as [H|H]; [subst t; eexists; split; reflexivity|]). contradiction. Qed.
Lemma coltype_is_known t ct : coltype_from_code t = Ok ct -> In t known_types.
Proof.
  intros E. apply coltype_known in E. unfold coltype_table in E. cbn [In] in E. unfold known_types.
  repeat (destruct E as [E|E]; [inversion E; subst; cbn [In]; tauto|]). contradiction.
Qed.
Lemma numeric_types_count types : Forall (fun t => In t known_types) types -> numeric_count types = Ok (N.of_nat (length (filter (fun t => has t numeric_types) types))).
Proof.
  induction 1 as [|t types H F IH]; [reflexivity|]. cbn [numeric_count filter]. destruct (known_coltype t H) as (ct & -> & E). cbn [rbind]. rewrite IH. cbn [rbind]. rewrite E.
  destruct (has t numeric_types); cbn [length]; f_equal; lia.
Qed.
Lemma filter_le {A} (f : A -> bool) l : (length (filter f l) <= length l)%nat.
Proof. induction l as [|x l IH]; cbn [filter length]; [lia|]. destruct (f x); cbn [length]; lia. Qed.
Lemma reverted_ok n bs : n <= isize_max -> (squash (read_bitmap_reverted n bs 0%nat) = Ok tt <-> (n + 7) / 8 <= N.of_nat (length bs)) /\ squash (read_bitmap_reverted n bs 0%nat) <> Panic.
Proof.
  intros M. unfold read_bitmap_reverted, pbind, lift. rewrite (alloc_ok n M). unfold read_bytes. rewrite alloc_ok by (unfold isize_max in *; lia). cbn [rbind].
  rewrite Nat.sub_0_r. destruct (N.ltb_spec (N.of_nat (length bs)) ((n + 7) / 8)); cbn [squash ret]; split; try discriminate; split; try discriminate; auto; lia.
Qed.
Lemma exactp_int {A} (g : N -> A) : exactp (n <- read_len_enc_num ;; ret (g n)). Proof. exb; [apply exactp_lenenc|ex]. Qed.
Lemma exactp_two_ints {A} (g : N -> N -> A) : exactp (k <- read_len_enc_num ;; v <- read_len_enc_num ;; ret (g k v)).
Proof. exb; [apply exactp_lenenc|]. apply exactp_int. Qed.
Lemma charset_ok bs : squash (parse_default_charset bs 0%nat) = Ok tt <-> exists d r, bs = d ++ r /\ an_int d /\ chain two_ints r.
Proof.
  rewrite squash_ok. unfold parse_default_charset, pbind. split.
  - intros (x & q & E). destruct (read_len_enc_num bs 0%nat) as [[d q1]|e| |] eqn:D; try discriminate.
    destruct (runs_uses read_len_enc_num exactp_lenenc [] bs _ _ D) as (s1 & s2 & -> & R & ->). cbn [app] in *.
    destruct (parse_int_map (s1 ++ s2) (length s1)) as [[l q2]|e| |] eqn:M; try discriminate.
    exists s1, s2. split; [reflexivity|]. split; [exists d; now apply runs_lenenc_iff|].
    destruct (pwhile_nonempty _ (exactp_two_ints _) _ _ _ _ M) as (segs & S & F); [rewrite app_length; lia|]. rewrite skipn_app_exact in S. exists segs. split; [exact S|].
    clear -F. induction F as [|s x segs xs [N Rs] F IH]; constructor; [|exact IH]. split; [exact N|]. eapply (takes_two_ints (fun k v => (k mod u32max1, v mod u32max1))). exists x. exact Rs.
  - intros (d & r & -> & (n & C) & (ps & -> & F)). pose proof (runs_lenenc _ _ C [] (concat ps)) as X. cbn [app length Nat.add] in X. rewrite X.
    assert (G : exists l, map fst l = ps /\ Forall (fun x : list byte * (N * N) => fst x <> [] /\ runs (k <- read_len_enc_num ;; v <- read_len_enc_num ;; ret (k mod u32max1, v mod u32max1)) (fst x) (snd x)) l).
    { clear -F. induction F as [|s ps [N Rs] F IH]; [exists []; split; [reflexivity|constructor]|]. destruct IH as (l & <- & Fl). eapply (takes_two_ints (fun k v => (k mod u32max1, v mod u32max1))) in Rs. destruct Rs as (a & Rs).
      exists ((s, a) :: l). split; [reflexivity|]. constructor; [split; [exact N|exact Rs]|exact Fl]. }
    destruct G as (l & <- & G). pose proof (pwhile_runs _ fst snd l G d) as W. rewrite flat_map_concat_map in W. unfold parse_int_map. rewrite W. do 2 eexists. reflexivity.
Qed.
Lemma nopanic_int_map buf pos : parse_int_map buf pos <> Panic.
Proof. unfold parse_int_map. apply pwhile_nopanic. intros b p. apply psafe_nopanic. apply psafe_bind; [apply psafe_lenenc|intros]. apply psafe_bind; [apply psafe_lenenc|intros; psl]. Qed.
Lemma content_exact types code bs : Forall (fun t => In t known_types) types -> N.of_nat (length types) <= isize_max -> 1 <= code <= 12 ->
  (content_res types code bs = Ok tt <-> field_content types code bs) /\ (content_res types code bs = Panic <-> content_stops code bs).
Proof.
  intros K M C0. unfold content_res, field_content, content_stops. rewrite (numeric_types_count types K).
  assert (Ln : N.of_nat (length (filter (fun t => has t numeric_types) types)) <= isize_max) by (pose proof (filter_le (fun t => has t numeric_types) types); lia).
  assert (C : code = 1 \/ code = 2 \/ code = 3 \/ code = 4 \/ code = 5 \/ code = 6 \/ code = 7 \/ code = 8 \/ code = 9 \/ code = 10 \/ code = 11 \/ code = 12 \/ False) by lia.
  assert (Ints : (squash (parse_int_array bs 0%nat) = Ok tt <-> chain an_int bs) /\ (squash (parse_int_array bs 0%nat) = Panic <-> False)).
  { rewrite squash_ok, squash_panic. split; [apply pwhile_chain; [apply exactp_int|apply takes_int]|]. split; [|contradiction].
    apply pwhile_nopanic. intros b p. apply psafe_nopanic. apply psafe_bind; [apply psafe_lenenc|intros; psl]. }
  assert (Pairs : (squash (parse_int_map bs 0%nat) = Ok tt <-> chain two_ints bs) /\ (squash (parse_int_map bs 0%nat) = Panic <-> False)).
  { rewrite squash_ok, squash_panic. split; [apply pwhile_chain; [apply exactp_two_ints|apply takes_two_ints]|]. split; [|contradiction]. apply nopanic_int_map. }
  assert (Dflt : (squash (parse_default_charset bs 0%nat) = Ok tt <-> exists d r, bs = d ++ r /\ an_int d /\ chain two_ints r) /\ (squash (parse_default_charset bs 0%nat) = Panic <-> False)).
  { split; [apply charset_ok|]. rewrite squash_panic. split; [|contradiction]. unfold parse_default_charset, pbind. pose proof (psafe_nopanic _ psafe_lenenc bs 0%nat) as X.
    destruct (read_len_enc_num bs 0%nat) as [[d q]|e| |]; try discriminate; [|congruence]. pose proof (nopanic_int_map bs q) as Y. destruct (parse_int_map bs q) as [[l r]|e| |]; discriminate || congruence. }
  assert (Strs : (squash (parse_string_array bs 0%nat) = Ok tt <-> chain a_string bs) /\ (squash (parse_string_array bs 0%nat) = Panic <-> breaks a_string starts_too_long bs)).
  { rewrite squash_ok, squash_panic. split; [apply pwhile_chain; [apply exactp_len_str|apply takes_len_str]|].
    exact (pans_pwhile read_len_enc_str starts_too_long a_string exactp_len_str pans_len_str takes_len_str [] bs). }
  assert (Vals : (squash (parse_type_values bs 0%nat) = Ok tt <-> chain some_strings bs) /\ (squash (parse_type_values bs 0%nat) = Panic <-> breaks some_strings strings_stop bs)).
  { rewrite squash_ok, squash_panic. split; [apply pwhile_chain; [apply exactp_strings|apply takes_strings]|].
    exact (pans_pwhile _ strings_stop some_strings exactp_strings pans_strings takes_strings [] bs). }
  repeat (destruct C as [C|C]; [subst code; cbn [N.eqb Pos.eqb has existsb orb]; try assumption|]); [..|contradiction].
  - destruct (reverted_ok _ bs Ln) as [R1 R2]. split; [exact R1|]. split; [intros E; exfalso; exact (R2 E)|intros X; exfalso; exact X].
  - destruct (reverted_ok _ bs M) as [R1 R2]. split; [exact R1|]. split; [intros E; exfalso; exact (R2 E)|intros X; exfalso; exact X].
Qed.
Lemma exactp_skel types : exactp (field_skel types).
Proof. unfold field_skel. exb; [ex|]. exb; [destruct (_ && _); ex|]. exb; [apply exactp_lenenc|]. exb; ex. Qed.
Lemma u8_byte s v : runs read_u8 s v <-> exists b, s = [b] /\ v = b2n b.
Proof.
  unfold read_u8. rewrite runs_le_iff by lia. split.
  - intros [L ->]. destruct s as [|b [|? ?]]; try discriminate. exists b. split; [reflexivity|]. unfold le_dec. lia.
  - intros (b & -> & ->). split; [reflexivity|]. unfold le_dec. lia.
Qed.
Lemma guard_iff code s u : runs (if (1 <=? code) && (code <=? 12) then ret tt else fail (EString (unknown_metadata code))) s u <-> s = [] /\ 1 <= code <= 12.
Proof.
  destruct ((1 <=? code) && (code <=? 12)) eqn:B.
  - apply andb_prop in B. destruct B as [B1 B2]. apply N.leb_le in B1, B2. rewrite runs_ret_iff. destruct u. intuition.
  - rewrite runs_fail_iff. split; [contradiction|]. intros [_ [C1 C2]]. apply N.leb_le in C1, C2. rewrite C1, C2 in B. discriminate.
Qed.
Lemma takes_field types : Forall (fun t => In t known_types) types -> N.of_nat (length types) <= isize_max -> takes (field_skel types) (a_field types).
Proof.
  intros K M s. unfold field_skel, a_field. split.
  - intros (u & R). apply runs_bind_iff in R; [|ex|intros; exb; [destruct (_ && _); ex|intros; exb; [apply exactp_lenenc|intros; exb; ex]]]. destruct R as (s1 & s2 & code & -> & R1 & R).
    apply runs_bind_iff in R; [|destruct (_ && _); ex|intros; exb; [apply exactp_lenenc|intros; exb; ex]]. destruct R as (s3 & s4 & [] & -> & R2 & R).
    apply runs_bind_iff in R; [|apply exactp_lenenc|intros; exb; ex]. destruct R as (s5 & s6 & len & -> & R3 & R). apply runs_bind_iff in R; [|ex|intros; ex].
    destruct R as (s7 & s8 & bs & -> & R4 & R5). apply u8_byte in R1. apply guard_iff in R2. apply runs_lenenc_iff in R3. apply runs_bytes_iff in R4. apply runs_lift_iff in R5.
    destruct R1 as (b & -> & ->), R2 as [-> B], R4 as (-> & L & M2), R5 as [-> E]. destruct u. apply (content_exact types _ _ K M B) in E. exists b, s5, s7. rewrite app_nil_r. split; [reflexivity|].
    split; [exact B|]. rewrite L. auto.
  - intros (b & c & x & -> & B & C & L & F). apply (content_exact types _ _ K M B) in F. exists tt.
    change (b :: c ++ x) with ([b] ++ c ++ x). eapply runs_bind; [apply u8_byte; now exists b|]. eapply runs_bind_nil; [apply guard_iff; auto|].
    eapply runs_bind; [apply runs_lenenc; exact C|]. eapply runs_bind_last; [apply runs_bytes_iff; auto|]. apply runs_lift_iff; auto.
Unshelve. exact tt.
Qed.
Lemma pans_field types : Forall (fun t => In t known_types) types -> N.of_nat (length types) <= isize_max -> pans (field_skel types) field_stops.
Proof.
  intros K M. eapply pans_conv; [|unfold field_skel; apply pans_bind; [ex|apply pans_le; lia|intros code; apply pans_bind; [destruct (_ && _); ex|destruct (_ && _); apply pans_safe; psl|intros u0;
    apply pans_bind; [apply exactp_lenenc|apply pans_safe, psafe_lenenc|intros len; apply pans_bind; [ex|apply pans_bytes|intros bs; apply pans_lift]]]]].
  intros r. cbv beta. unfold field_stops. split.
  - intros [[]|(s1 & code & p1 & -> & R1 & [[]|(s2 & [] & p2 & -> & R2 & [[]|(s3 & len & p3 & -> & R3 & H)])])].
    apply u8_byte in R1. apply guard_iff in R2. apply runs_lenenc_iff in R3. destruct R1 as (b & -> & ->), R2 as [-> B]. exists b, (s3 ++ p3). split; [reflexivity|]. split; [exact B|].
    destruct H as [T|(s4 & bs & p4 & -> & R4 & E)]; [left; now exists len, s3, p3|]. right. apply runs_bytes_iff in R4. destruct R4 as (-> & L & M2).
    apply (content_exact types _ _ K M B) in E. exists s3, s4, p4. rewrite L. auto.
  - intros (b & tail & -> & B & H). right. exists [b], (b2n b), tail. split; [reflexivity|]. split; [apply u8_byte; now exists b|]. right. exists [], tt, tail. split; [reflexivity|].
    split; [apply guard_iff; auto|]. right. destruct H as [(n & c & post & -> & C & T)|(c & x & post & -> & C & L & E)].
    + exists c, n, post. split; [reflexivity|]. split; [now apply runs_lenenc|]. now left.
    + apply (content_exact types _ _ K M B) in E. exists c, (N.of_nat (length x)), (x ++ post). split; [reflexivity|]. split; [now apply runs_lenenc|]. right. exists x, x, post.
      split; [reflexivity|]. split; [apply runs_bytes_iff; auto|exact E].
Qed.
