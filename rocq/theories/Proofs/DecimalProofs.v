(* DECIMAL cells. *)
From Verif Require Import Base.Tac Base.Bytes Base.Text Base.Res Base.Str Base.Parse Base.Loop Model.Values Model.Decimal Spec.CodecSpec Spec.CellSpec.
Local Open Scope N_scope.

(* ---- digit strings ---- *)
Lemma all_digits_app a b : all_digits (a ++ b) <-> all_digits a /\ all_digits b.
Proof. unfold all_digits. rewrite forallb_app. apply andb_true_iff. Qed.
Lemma all_digits_cons c t : all_digits (c :: t) <-> is_digit c = true /\ all_digits t.
Proof. unfold all_digits. cbn [forallb]. apply andb_true_iff. Qed.
Lemma is_digit_range c : is_digit c = true <-> 48 <= c <= 57.
Proof. unfold is_digit. lia. Qed.
Lemma all_digits_firstn k t : all_digits t -> all_digits (firstn k t).
Proof. intros H. rewrite <- (firstn_skipn k t) in H. now apply all_digits_app in H. Qed.
Lemma all_digits_skipn k t : all_digits t -> all_digits (skipn k t).
Proof. intros H. rewrite <- (firstn_skipn k t) in H. now apply all_digits_app in H. Qed.
Lemma digits_val_cons c t : digits_val (c :: t) = (c - 48) * 10 ^ N.of_nat (length t) + digits_val t.
Proof. change (c :: t) with ([c] ++ t). rewrite digits_val_app. reflexivity. Qed.
Lemma pow10_S k : 10 ^ N.of_nat (S k) = 10 * 10 ^ N.of_nat k.
Proof. rewrite Nat2N.inj_succ, N.pow_succ_r'. reflexivity. Qed.
Lemma digits_val_lt t : all_digits t -> digits_val t < 10 ^ N.of_nat (length t).
Proof.
  induction t as [|c t IH]; [reflexivity|]. rewrite all_digits_cons, is_digit_range, digits_val_cons. intros [Hc Ht].
  cbn [length]. rewrite pow10_S. specialize (IH Ht). nia.
Qed.
Lemma digits_inj a : forall b, length a = length b -> all_digits a -> all_digits b -> digits_val a = digits_val b -> a = b.
Proof.
  induction a as [|c a IH]; intros [|d b]; cbn [length]; try discriminate; [reflexivity|]. intros L.
  rewrite !all_digits_cons, !is_digit_range, !digits_val_cons. intros [Hc Ha] [Hd Hb] E. injection L as L. rewrite L in E.
  pose proof (digits_val_lt a Ha) as La. pose proof (digits_val_lt b Hb) as Lb. rewrite L in La.
  assert (c = d) by nia. subst d. f_equal. apply IH; auto. lia.
Qed.
Lemma dec_aux_head f n : 0 < n -> n < 2 ^ N.of_nat f -> exists c r, dec_aux f n = c :: r /\ c <> 48.
Proof.
  revert n. induction f as [|f IH]; intros n Hn Hf; [change (2 ^ N.of_nat 0) with 1 in Hf; lia|].
  cbn [dec_aux]. destruct (N.ltb_spec n 10).
  - exists (48 + n mod 10), []. split; [reflexivity|lia].
  - destruct (IH (n / 10)) as (c & r & E & Hc); [lia| |].
    + rewrite Nat2N.inj_succ, N.pow_succ_r' in Hf. lia.
    + exists c, (r ++ [48 + n mod 10]). rewrite E. split; [reflexivity|exact Hc].
Qed.
Lemma dec_text_head n : 0 < n -> exists c r, dec_text n = c :: r /\ c <> 48.
Proof. intros H. apply dec_aux_head; [exact H|apply log2_bound]. Qed.
Lemma dec_text_all_digits n : all_digits (dec_text n).
Proof. apply dec_text_digits. Qed.
Lemma dec_text_length n k : (1 <= k)%nat -> n < 10 ^ N.of_nat k -> (length (dec_text n) <= k)%nat.
Proof.
  intros Hk Hn. destruct (N.eq_dec n 0) as [->|Hz]; [exact Hk|].
  destruct (dec_text_head n ltac:(lia)) as (c & r & E & Hc). pose proof (dec_text_val n) as V. pose proof (dec_text_all_digits n) as D.
  rewrite E in *. rewrite all_digits_cons, is_digit_range in D. rewrite digits_val_cons in V. cbn [length].
  destruct (Nat.leb_spec (S (length r)) k) as [L|L]; [exact L|exfalso].
  assert (10 ^ N.of_nat k <= 10 ^ N.of_nat (length r)) by (apply N.pow_le_mono_r; lia). nia.
Qed.
Lemma digits_val_zeros k : digits_val (repeat 48 k) = 0.
Proof. induction k as [|k IH]; [reflexivity|]. cbn [repeat]. rewrite digits_val_cons, IH. lia. Qed.
Lemma all_digits_zeros k : all_digits (repeat 48 k).
Proof. induction k as [|k IH]; [reflexivity|]. cbn [repeat]. apply all_digits_cons. auto. Qed.
Lemma pad_digits g : g <> [] -> all_digits g -> pad_text (length g) (digits_val g) = g.
Proof.
  intros Hne Hd. unfold pad_text. pose proof (digits_val_lt g Hd) as L.
  assert (H1 : (1 <= length g)%nat) by (destruct g; [congruence|cbn [length]; lia]).
  pose proof (dec_text_length _ _ H1 L). apply digits_inj.
  - rewrite app_length, repeat_length. lia.
  - apply all_digits_app. split; [apply all_digits_zeros|apply dec_text_all_digits].
  - exact Hd.
  - rewrite digits_val_app, digits_val_zeros, dec_text_val. lia.
Qed.
Lemma strip_repeat k t : strip_zeros (repeat 48 k ++ t) = strip_zeros t.
Proof. induction k as [|k IH]; [reflexivity|]. cbn [repeat app strip_zeros]. exact IH. Qed.
Lemma strip_digits g : all_digits g -> strip_zeros g = if digits_val g =? 0 then [] else dec_text (digits_val g).
Proof.
  intros Hd. destruct g as [|c g]; [reflexivity|]. set (t := c :: g) in *.
  assert (E : t = pad_text (length t) (digits_val t)) by (symmetry; apply pad_digits; [discriminate|exact Hd]).
  unfold pad_text in E. destruct (N.eqb_spec (digits_val t) 0) as [Hz|Hz].
  - rewrite Hz in E. rewrite E. rewrite strip_repeat. reflexivity.
  - rewrite E at 1. rewrite strip_repeat. destruct (dec_text_head (digits_val t) ltac:(lia)) as (x & r & Ex & Hx). rewrite Ex.
    cbn [strip_zeros]. destruct (N.eqb_spec x 48); [congruence|reflexivity].
Qed.
Lemma strip_app a b : strip_zeros (a ++ b) = match strip_zeros a with [] => strip_zeros b | s => s ++ b end.
Proof.
  induction a as [|c a IH]; [reflexivity|]. cbn [app strip_zeros]. destruct (c =? 48); [exact IH|reflexivity].
Qed.

(* ---- groups ---- *)
Lemma nines_length k t : length t = (9 * k)%nat -> Forall (fun g => length g = 9%nat) (nines k t).
Proof.
  revert t. induction k as [|k IH]; intros t L; cbn [nines]; constructor; [rewrite firstn_length; lia|].
  apply IH. rewrite skipn_length. lia.
Qed.
Lemma runs_group g : length g = 9%nat -> all_digits g -> runs (read_be 4) (be_enc 4 (digits_val g)) (digits_val g).
Proof.
  intros L D. apply runs_read_be; [|unfold isize_max; lia]. pose proof (digits_val_lt g D) as X. rewrite L in X.
  change (10 ^ N.of_nat 9) with 1000000000 in X. change (256 ^ N.of_nat 4) with 4294967296. lia.
Qed.
Definition some_digits (t : text) : bool := match t with [] => false | _ => true end.
Lemma runs_int_groups k : forall t started acc, length t = (9 * k)%nat -> all_digits t ->
  runs (dec_int_groups k started acc) (full_groups k t)
    (if started then (true, acc ++ t) else (some_digits (strip_zeros t), acc ++ strip_zeros t)).
Proof.
  induction k as [|k IH]; intros t started acc L D.
  - destruct t; [|discriminate L]. unfold full_groups. cbn [nines flat_map dec_int_groups strip_zeros some_digits].
    destruct started; cbn [app]; rewrite app_nil_r; apply runs_ret.
  - unfold full_groups. cbn [nines flat_map dec_int_groups]. fold (full_groups k (skipn 9 t)).
    assert (L1 : length (firstn 9 t) = 9%nat) by (rewrite firstn_length; lia).
    assert (D1 : all_digits (firstn 9 t)) by now apply all_digits_firstn.
    assert (L2 : length (skipn 9 t) = (9 * k)%nat) by (rewrite skipn_length; lia).
    assert (D2 : all_digits (skipn 9 t)) by now apply all_digits_skipn.
    assert (Hne : firstn 9 t <> []) by (intros E; rewrite E in L1; discriminate).
    assert (Et : t = firstn 9 t ++ skipn 9 t) by (symmetry; apply firstn_skipn).
    eapply runs_bind; [now apply runs_group|]. cbv beta. destruct started.
    + pose proof (pad_digits _ Hne D1) as P. rewrite L1 in P. rewrite P. rewrite Et at 3. rewrite app_assoc. exact (IH _ true _ L2 D2).
    + pose proof (strip_digits _ D1) as S1. destruct (N.ltb_spec 0 (digits_val (firstn 9 t))).
      * destruct (N.eqb_spec (digits_val (firstn 9 t)) 0) as [Hz|_]; [lia|].
        destruct (dec_text_head (digits_val (firstn 9 t)) H) as (c & r & E & _).
        assert (St : strip_zeros t = dec_text (digits_val (firstn 9 t)) ++ skipn 9 t) by (rewrite Et at 1; rewrite strip_app, S1, E; reflexivity).
        assert (Sd : some_digits (strip_zeros t) = true) by (rewrite St, E; reflexivity).
        rewrite Sd, St, app_assoc. exact (IH _ true _ L2 D2).
      * assert (Hz : digits_val (firstn 9 t) = 0) by lia. rewrite Hz in S1. change (0 =? 0) with true in S1. cbv iota in S1.
        assert (St : strip_zeros t = strip_zeros (skipn 9 t)) by (rewrite Et at 1; rewrite strip_app, S1; reflexivity).
        rewrite St. exact (IH _ false _ L2 D2).
Qed.
Lemma runs_frac_groups k : forall t acc, length t = (9 * k)%nat -> all_digits t -> runs (dec_frac_groups k acc) (full_groups k t) (acc ++ t).
Proof.
  induction k as [|k IH]; intros t acc L D.
  - destruct t; [|discriminate L]. cbn. rewrite app_nil_r. apply runs_ret.
  - unfold full_groups. cbn [nines flat_map dec_frac_groups]. fold (full_groups k (skipn 9 t)).
    assert (L1 : length (firstn 9 t) = 9%nat) by (rewrite firstn_length; lia).
    assert (D1 : all_digits (firstn 9 t)) by now apply all_digits_firstn.
    assert (Hne : firstn 9 t <> []) by (intros E; rewrite E in L1; discriminate).
    eapply runs_bind; [now apply runs_group|]. cbv beta. pose proof (pad_digits _ Hne D1) as P. rewrite L1 in P. rewrite P.
    rewrite <- (firstn_skipn 9 t) at 3. rewrite app_assoc. apply IH; [rewrite skipn_length; lia|now apply all_digits_skipn].
Qed.
Lemma full_groups_prefix k t : full_groups k t = full_groups k (firstn (9 * k) t).
Proof.
  unfold full_groups. f_equal. revert t. induction k as [|k IH]; intros t; [reflexivity|]. cbn [nines].
  replace (9 * S k)%nat with (9 + 9 * k)%nat by lia. f_equal.
  - rewrite firstn_firstn. reflexivity.
  - rewrite IH. f_equal. rewrite firstn_skipn_comm. reflexivity.
Qed.

(* ---- short groups ---- *)
Lemma compressed_bytes_for k : (k <= 9)%nat -> compressed_bytes (N.of_nat k) = N.of_nat (bytes_for k).
Proof. intros H. do 10 (destruct k as [|k]; [reflexivity|]). lia. Qed.
Lemma bytes_for_room k : (1 <= k < 9)%nat -> (1 <= bytes_for k <= 4)%nat /\ 10 ^ N.of_nat k <= 128 * 256 ^ N.of_nat (bytes_for k - 1).
Proof.
  intros H. destruct k as [|k]; [lia|]. do 8 (destruct k as [|k]; [split; vm_compute; [split; intros; lia|discriminate]|]). lia.
Qed.
Lemma runs_short g k : length g = k -> (1 <= k < 9)%nat -> all_digits g ->
  runs (read_uint_be (N.of_nat (bytes_for k))) (be_enc (bytes_for k) (digits_val g)) (digits_val g) /\ digits_val g < u32max1.
Proof.
  intros L Hk D. destruct (bytes_for_room k Hk) as [Hb Hr]. pose proof (digits_val_lt g D) as V. rewrite L in V.
  split.
  - apply runs_uint_be; [lia|].
    destruct (bytes_for k) as [|b]; [lia|]. cbn [Nat.sub] in Hr. rewrite Nat.sub_0_r in Hr. rewrite pow256_S. lia.
  - eapply N.lt_le_trans; [exact V|]. eapply N.le_trans; [apply N.pow_le_mono_r; [lia|]; instantiate (1 := 8); lia|]. vm_compute. discriminate.
Qed.
Lemma u32_mod n : n < u32max1 -> n mod u32max1 = n.
Proof. intros H. now apply N.mod_small. Qed.

(* ---- the whole number ---- *)
Lemma runs_decimal_digits ds fs sign : all_digits ds -> all_digits fs ->
  runs (decimal_digits (N.of_nat (length ds / 9)) (N.of_nat (length ds mod 9)) (N.of_nat (length fs / 9)) (N.of_nat (length fs mod 9))
          (N.of_nat (length fs)) sign)
    (int_bytes ds ++ frac_bytes fs)
    (sign ++ (match strip_zeros ds with [] => [48] | t => t end) ++ (match fs with [] => [] | _ => 46 :: fs end)).
Proof.
  intros Dd Df. unfold decimal_digits, int_bytes. set (k := (length ds mod 9)%nat). rewrite !compressed_bytes_for by lia.
  rewrite !Nat2N.id.
  set (dh := firstn k ds). set (dt := skipn k ds).
  assert (Eds : ds = dh ++ dt) by (symmetry; apply firstn_skipn).
  assert (Lh : length dh = k) by (unfold dh; rewrite firstn_length; lia).
  assert (Lt : length dt = (9 * (length ds / 9))%nat) by (unfold dt; rewrite skipn_length; lia).
  assert (Dh : all_digits dh) by now apply all_digits_firstn.
  assert (Dt : all_digits dt) by now apply all_digits_skipn.
  assert (R1 : runs (let size := N.of_nat (bytes_for k) in
     if 0 <? size then n <- read_uint_be size ;; let n := n mod u32max1 in
       if 0 <? n then ret (true, sign ++ dec_text n) else ret (false, sign)
     else ret (false, sign)) (be_enc (bytes_for k) (digits_val dh)) (some_digits (strip_zeros dh), sign ++ strip_zeros dh)).
  { cbv zeta. destruct (Nat.eq_dec k 0) as [Hz|Hz].
    - rewrite Hz in *. destruct dh; [|discriminate Lh]. cbn. rewrite app_nil_r. apply runs_ret.
    - destruct (bytes_for_room k ltac:(lia)) as [Hb _]. destruct (N.ltb_spec 0 (N.of_nat (bytes_for k))); [|lia].
      destruct (runs_short dh k Lh ltac:(lia) Dh) as [R V]. eapply runs_bind_last; [exact R|]. rewrite u32_mod by exact V.
      rewrite (strip_digits dh Dh). destruct (N.ltb_spec 0 (digits_val dh)).
      + destruct (N.eqb_spec (digits_val dh) 0); [lia|]. destruct (dec_text_head (digits_val dh)) as (c & r & E & _); [lia|]. rewrite E. cbn [some_digits].
        apply runs_ret.
      + destruct (N.eqb_spec (digits_val dh) 0); [|lia]. cbn [some_digits]. rewrite app_nil_r. apply runs_ret. }
  rewrite <- app_assoc. eapply runs_bind; [exact R1|]. cbv beta iota. clear R1.
  pose proof (runs_int_groups _ dt (some_digits (strip_zeros dh)) (sign ++ strip_zeros dh) Lt Dt) as R2.
  assert (E2 : (if some_digits (strip_zeros dh) then (true, (sign ++ strip_zeros dh) ++ dt)
               else (some_digits (strip_zeros dt), (sign ++ strip_zeros dh) ++ strip_zeros dt)) = (some_digits (strip_zeros ds), sign ++ strip_zeros ds)).
  { rewrite Eds, strip_app. destruct (strip_zeros dh) as [|c r]; cbn [some_digits]; [now rewrite app_nil_r|].
    rewrite <- app_assoc. reflexivity. }
  eapply runs_bind; [eapply runs_cast; [exact R2|reflexivity|exact E2]|]. cbv beta iota zeta. clear R2 E2.
  match goal with |- runs (pbind (dec_frac_groups _ ?a) _) _ _ => set (acc2 := a) end.
  assert (A2 : acc2 ++ fs = sign ++ match strip_zeros ds with [] => [48] | t => t end ++ match fs with [] => [] | _ => 46 :: fs end).
  { unfold acc2. destruct fs as [|f fs']; cbn [length].
    - change (0 <? N.of_nat 0) with false. cbv iota. destruct (strip_zeros ds); cbn [some_digits]; rewrite ?app_nil_r; reflexivity.
    - destruct (N.ltb_spec 0 (N.of_nat (S (length fs')))); [|lia].
      destruct (strip_zeros ds); cbn [some_digits]; rewrite ?app_nil_r, <- ?app_assoc; reflexivity. }
  rewrite <- A2. clearbody acc2. clear A2.
  unfold frac_bytes. set (q := (length fs / 9)%nat). rewrite full_groups_prefix.
  assert (Lq : length (firstn (9 * q) fs) = (9 * q)%nat) by (rewrite firstn_length; lia).
  eapply runs_bind; [apply runs_frac_groups; [exact Lq|now apply all_digits_firstn]|]. cbv beta.
  set (fh := firstn (9 * q) fs). set (ft := skipn (9 * q) fs).
  assert (Lf : length ft = (length fs mod 9)%nat) by (unfold ft, q; rewrite skipn_length; lia).
  assert (Df' : all_digits ft) by now apply all_digits_skipn.
  replace (acc2 ++ fs) with ((acc2 ++ fh) ++ ft) by (rewrite <- app_assoc; f_equal; apply firstn_skipn).
  destruct (Nat.eq_dec (length fs mod 9) 0) as [Hz|Hz].
  - rewrite Hz in *. destruct ft; [|discriminate Lf]. cbn. rewrite app_nil_r. apply runs_ret.
  - destruct (bytes_for_room (length fs mod 9) ltac:(lia)) as [Hb _]. destruct (N.ltb_spec 0 (N.of_nat (bytes_for (length fs mod 9)))); [|lia].
    destruct (runs_short ft _ Lf ltac:(lia) Df') as [R V]. eapply runs_bind_last; [exact R|]. rewrite u32_mod by exact V.
    rewrite <- Lf. rewrite pad_digits; [apply runs_ret| |exact Df']. intros E. rewrite E in Lf. cbn in Lf. lia.
Qed.

(* ---- sign ---- *)
Lemma be_enc_S k n : be_enc (S k) n = n2b (n / 256 ^ N.of_nat k) :: be_enc k n.
Proof.
  unfold be_enc. revert n. induction k as [|k IH]; intros n.
  - cbn. f_equal. now rewrite N.div_1_r.
  - change (le_enc (S (S k)) n) with (n2b n :: le_enc (S k) (n / 256)).
    change (le_enc (S k) n) with (n2b n :: le_enc k (n / 256)). cbn [rev]. rewrite IH. cbn [app]. f_equal.
    f_equal. rewrite N.div_div by (try lia; pose proof (pow256_pos k); lia). f_equal. symmetry. apply pow256_S.
Qed.
Lemma first_small k n : (1 <= k)%nat -> n < 128 * 256 ^ N.of_nat (k - 1) -> exists b r, be_enc k n = b :: r /\ b2n b < 128.
Proof.
  intros Hk Hn. destruct k as [|k]; [lia|]. rewrite be_enc_S. do 2 eexists. split; [reflexivity|].
  replace (S k - 1)%nat with k in Hn by lia.
  assert (n / 256 ^ N.of_nat k < 128) by (apply N.div_lt_upper_bound; [pose proof (pow256_pos k); lia|lia]).
  rewrite b2n_n2b by lia. exact H.
Qed.
Lemma group_small t : all_digits t -> length t = 9%nat -> exists b r, be_enc 4 (digits_val t) = b :: r /\ b2n b < 128.
Proof.
  intros D L. apply first_small; [lia|]. pose proof (digits_val_lt t D) as V. rewrite L in V. change (10 ^ N.of_nat 9) with 1000000000 in V.
  change (256 ^ N.of_nat (4 - 1)) with 16777216. lia.
Qed.
Lemma short_small t k : all_digits t -> length t = k -> (1 <= k < 9)%nat -> exists b r, be_enc (bytes_for k) (digits_val t) = b :: r /\ b2n b < 128.
Proof.
  intros D L Hk. destruct (bytes_for_room k Hk) as [Hb Hr]. apply first_small; [lia|]. pose proof (digits_val_lt t D) as V. rewrite L in V. lia.
Qed.
Lemma groups_small k t : all_digits t -> length t = (9 * k)%nat -> (1 <= k)%nat -> exists b r, full_groups k t = b :: r /\ b2n b < 128.
Proof.
  intros D L Hk. destruct k as [|k]; [lia|]. unfold full_groups. cbn [nines flat_map].
  destruct (group_small (firstn 9 t)) as (b & r & E & Hb); [now apply all_digits_firstn|rewrite firstn_length; lia|].
  rewrite E. exists b. eexists. split; [reflexivity|exact Hb].
Qed.
Lemma plain_small ds fs : all_digits ds -> all_digits fs -> (1 <= length ds + length fs)%nat ->
  exists b r, int_bytes ds ++ frac_bytes fs = b :: r /\ b2n b < 128.
Proof.
  intros Dd Df L. unfold int_bytes, frac_bytes.
  assert (P : forall x y, (exists b r, x = b :: r /\ b2n b < 128) -> exists b r, x ++ y = b :: r /\ b2n b < 128).
  { intros x y (b & r & -> & Hb). exists b, (r ++ y). auto. }
  destruct (Nat.eq_dec (length ds mod 9) 0) as [Hz|Hz].
  - rewrite Hz. cbn [bytes_for firstn skipn]. change (be_enc 0 _) with (@nil byte). cbn [app].
    destruct (Nat.eq_dec (length ds / 9) 0) as [Hz2|Hz2].
    + rewrite Hz2. change (full_groups 0 ds) with (@nil byte). cbn [app].
      destruct (Nat.eq_dec (length fs / 9) 0) as [Hz3|Hz3].
      * rewrite Hz3. change (full_groups 0 fs) with (@nil byte). cbn [app]. change (skipn (9 * 0) fs) with fs. apply short_small; [exact Df| |]; lia.
      * apply P. rewrite full_groups_prefix. apply groups_small; [now apply all_digits_firstn|rewrite firstn_length; lia|lia].
    + apply P. apply groups_small; [exact Dd|lia|lia].
  - apply P. apply P. apply short_small; [now apply all_digits_firstn|rewrite firstn_length; lia|lia].
Qed.
Lemma short_length ds fs : length (int_bytes ds ++ frac_bytes fs) =
  (length ds / 9 * 4 + bytes_for (length ds mod 9) + length fs / 9 * 4 + bytes_for (length fs mod 9))%nat.
Proof.
  assert (G : forall k t, length (full_groups k t) = (k * 4)%nat).
  { intros k. unfold full_groups. induction k as [|k IH]; intros t; [reflexivity|]. cbn [nines flat_map]. rewrite app_length, IH, be_enc_length. lia. }
  unfold int_bytes, frac_bytes. rewrite !app_length, !G, !be_enc_length. lia.
Qed.
Lemma xor80 b : byte_xor 0x80 (invert_sign b) = b.
Proof. destruct b; reflexivity. Qed.
Lemma xorff b : byte_xor 0xFF (invert b) = b.
Proof. destruct b; reflexivity. Qed.
Lemma sign_pos b : b2n b < 128 -> N.land (b2n (invert_sign b)) 0x80 =? 0 = false.
Proof. destruct b; intros H; try reflexivity; exfalso; vm_compute in H; discriminate H. Qed.
Lemma sign_neg b : b2n b < 128 -> N.land (b2n (invert_sign (invert b))) 0x80 =? 0 = true.
Proof. destruct b; intros H; try reflexivity; exfalso; vm_compute in H; discriminate H. Qed.

Lemma runs_decimal bl neg ds fs : all_digits ds -> all_digits fs -> (1 <= length ds + length fs <= 255)%nat ->
  runs (parse_decimal bl (N.of_nat (length ds + length fs) + 256 * N.of_nat (length fs))) (decimal_bytes neg ds fs) (decimal_text neg ds fs).
Proof.
  intros Dd Df L. unfold parse_decimal.
  set (m := N.of_nat (length ds + length fs) + 256 * N.of_nat (length fs)).
  assert (E1 : m mod 256 = N.of_nat (length ds + length fs)) by (unfold m; lia).
  assert (E2 : m / 256 mod 256 = N.of_nat (length fs)) by (unfold m; lia).
  rewrite E1, E2. clear E1 E2 m.
  eapply runs_bind_nil; [apply runs_lift, usub_ok; lia|]. cbv beta.
  replace ((N.of_nat (length ds + length fs) - N.of_nat (length fs)) mod 256) with (N.of_nat (length ds)) by lia.
  replace (N.of_nat (length ds) / 9) with (N.of_nat (length ds / 9)) by lia.
  replace (N.of_nat (length fs) / 9) with (N.of_nat (length fs / 9)) by lia.
  replace (N.of_nat (length ds) - N.of_nat (length ds / 9) * 9) with (N.of_nat (length ds mod 9)) by lia.
  replace (N.of_nat (length fs) - N.of_nat (length fs / 9) * 9) with (N.of_nat (length fs mod 9)) by lia.
  rewrite !compressed_bytes_for by lia.
  destruct (plain_small ds fs Dd Df ltac:(lia)) as (b & r & E & Hb). pose proof (short_length ds fs) as Len. rewrite E in Len. cbn [length] in Len.
  pose proof (fun sign => runs_decimal_digits ds fs sign Dd Df) as R. rewrite E in R.
  unfold decimal_bytes. rewrite E.
  assert (B : forall k, (k < 9 -> bytes_for k <= 4)%nat) by (intros k Hk; destruct k; [cbn; lia|]; destruct (bytes_for_room (S k)); lia).
  pose proof (B (length ds mod 9)%nat). pose proof (B (length fs mod 9)%nat).
  destruct neg; cbn [map].
  - eapply runs_bind_last; [apply runs_read_bytes; [cbn [length]; rewrite map_length; lia|unfold isize_max; lia]|]. cbv beta iota zeta.
    rewrite sign_neg by exact Hb. rewrite xor80. cbn [map]. rewrite xorff, map_map.
    rewrite (map_ext _ (fun x => x)) by (intros; apply xorff). rewrite map_id. apply runs_lift.
    pose proof (R [45] [] []) as X. cbn [app length] in X. rewrite app_nil_r in X. rewrite X. reflexivity.
  - eapply runs_bind_last; [apply runs_read_bytes; [cbn [length]; lia|unfold isize_max; lia]|]. cbv beta iota zeta.
    rewrite sign_pos by exact Hb. rewrite xor80. apply runs_lift.
    pose proof (R [] [] []) as X. cbn [app length] in X. rewrite app_nil_r in X. rewrite X. reflexivity.
Qed.
