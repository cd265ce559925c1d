(* Strings, length-encoded integers, bitmaps. *)
From Verif Require Import Base.Tac Base.Bytes Base.Text Base.Res Base.Str Base.Parse Base.Loop Model.Codec Spec.CodecSpec.
Local Open Scope N_scope.

(* ---- length-encoded integers ---- *)
Lemma runs_lenenc n bs : lenenc n bs -> runs read_len_enc_num bs n.
Proof.
  unfold read_len_enc_num. intros H. destruct H as [n H|n H|n H|n H].
  - eapply runs_bind_last; [apply (runs_u8_byte (n2b n))|]. rewrite b2n_n2b by lia.
    destruct (N.ltb_spec n 251); [apply runs_ret|lia].
  - change (n2b 252 :: le_enc 2 n) with ([n2b 252] ++ le_enc 2 n). eapply runs_bind; [apply runs_u8_byte|].
    rewrite b2n_n2b by lia. cbn -[read_u16]. now apply runs_u16.
  - change (n2b 253 :: le_enc 3 n) with ([n2b 253] ++ le_enc 3 n). eapply runs_bind; [apply runs_u8_byte|].
    rewrite b2n_n2b by lia. cbn -[read_u24]. now apply runs_u24.
  - change (n2b 254 :: le_enc 8 n) with ([n2b 254] ++ le_enc 8 n). eapply runs_bind; [apply runs_u8_byte|].
    rewrite b2n_n2b by lia. cbn -[read_u64]. now apply runs_u64.
Qed.
Lemma lenenc_short_ok n : n < 18446744073709551616 -> lenenc n (lenenc_short n).
Proof.
  intros H. unfold lenenc_short. destruct (N.ltb_spec n 251); [now constructor|].
  destruct (N.ltb_spec n 65536); [now constructor|]. destruct (N.ltb_spec n 16777216); now constructor.
Qed.
Lemma lenenc_nonempty n bs : lenenc n bs -> bs <> [].
Proof. destruct 1; discriminate. Qed.
Lemma psafe_lenenc : psafe read_len_enc_num.
Proof.
  unfold read_len_enc_num. apply psafe_bind; [apply psafe_read_le; unfold isize_max; lia|]. intros b.
  repeat (destruct (_ : bool); [try apply psafe_ret; try apply psafe_fail; try (apply psafe_read_le; unfold isize_max; lia)|]).
  apply psafe_fail.
Qed.
Lemma advances_lenenc : advances 1 read_len_enc_num.
Proof.
  unfold read_len_enc_num. replace 1%nat with (1 + 0)%nat by lia. apply advances_bind; [apply advances_read_le|]. intros b.
  repeat (destruct (_ : bool); [try apply advances_ret; try apply advances_fail; try (eapply advances_weaken; [|apply advances_read_le]; lia)|]).
  apply advances_fail.
Qed.
Lemma lenenc_inv : forall buf pos n pos', read_len_enc_num buf pos = Ok (n, pos') ->
  exists bs, lenenc n bs /\ firstn (length bs) (skipn pos buf) = bs /\ pos' = (pos + length bs)%nat.
Proof.
  assert (R : forall k buf pos n pos', (0 < k)%nat -> read_le k buf pos = Ok (n, pos') -> firstn k (skipn pos buf) = le_enc k n /\ pos' = (pos + k)%nat /\ n < 256 ^ N.of_nat k).
  { intros k buf pos n pos' Hk. unfold read_le, pbind, read_bytes, rbind, alloc. destruct (isize_max <? N.of_nat k); [discriminate|].
    destruct (N.ltb_spec (N.of_nat (length buf - pos)) (N.of_nat k)); [discriminate|]. unfold ret. rewrite Nat2N.id. intros E. injection E as <- <-.
    assert (L : length (firstn k (skipn pos buf)) = k) by (rewrite firstn_length, skipn_length; lia).
    split; [pose proof (le_enc_dec (firstn k (skipn pos buf))) as X; rewrite L in X; symmetry; exact X|].
    split; [reflexivity|]. pose proof (le_dec_lt (firstn k (skipn pos buf))) as X. now rewrite L in X. }
  intros buf pos n pos' H. unfold read_len_enc_num, pbind in H.
  destruct (read_u8 buf pos) as [[b p1]|e| |] eqn:E; try discriminate.
  apply (R 1%nat) in E; [|lia]. destruct E as (E1 & -> & E3). change (256 ^ N.of_nat 1) with 256 in E3. cbn [le_enc] in E1.
  assert (S : forall k m, firstn k (skipn (pos + 1) buf) = le_enc k m -> firstn (length (n2b b :: le_enc k m)) (skipn pos buf) = n2b b :: le_enc k m).
  { intros k m X. cbn [length]. rewrite le_enc_length. destruct (skipn pos buf) as [|x r] eqn:Es; [discriminate E1|].
    cbn [firstn] in *. injection E1 as ->. f_equal. rewrite <- X. f_equal. rewrite skipn_plus, Es. reflexivity. }
  destruct (N.ltb_spec b 0xFB).
  { unfold ret in H. injection H as <- <-. exists [n2b b]. split; [now constructor|]. split; [exact E1|reflexivity]. }
  destruct (N.eqb_spec b 0xFB); [discriminate|].
  destruct (N.eqb_spec b 0xFC) as [->|].
  { apply (R 2%nat) in H; [|lia]. destruct H as (H1 & -> & H3). exists (n2b 0xFC :: le_enc 2 n). split; [now constructor|]. split; [now apply S|].
    cbn [length]. rewrite le_enc_length. lia. }
  destruct (N.eqb_spec b 0xFD) as [->|].
  { apply (R 3%nat) in H; [|lia]. destruct H as (H1 & -> & H3). exists (n2b 0xFD :: le_enc 3 n). split; [now constructor|]. split; [now apply S|].
    cbn [length]. rewrite le_enc_length. lia. }
  destruct (N.eqb_spec b 0xFE) as [->|]; [|discriminate].
  apply (R 8%nat) in H; [|lia]. destruct H as (H1 & -> & H3). exists (n2b 0xFE :: le_enc 8 n). split; [now constructor|]. split; [now apply S|].
  cbn [length]. rewrite le_enc_length. lia.
Qed.
Lemma bounded_lenenc : bounded read_len_enc_num.
Proof.
  unfold read_len_enc_num. apply bounded_bind; [apply bounded_read_le; lia|]. intros b.
  repeat (destruct (_ : bool); [try apply keeps_ret; try apply keeps_fail; try apply keeps_read_le|]). apply keeps_fail.
Qed.

(* ---- strings ---- *)
Lemma from_utf8_encode t : valid_text t -> from_utf8 (utf8_encode t) = Ok t.
Proof. intros H. unfold from_utf8. now rewrite utf8_decode_encode. Qed.
Lemma runs_string t n : text_fits t -> N.of_nat (length (utf8_encode t)) = n -> runs (read_string n) (utf8_encode t) t.
Proof.
  intros [Hv Hl] <-. unfold read_string. eapply runs_bind_last; [apply runs_read_bytes; [reflexivity|exact Hl]|].
  apply runs_lift. now apply from_utf8_encode.
Qed.
Lemma runs_lenenc_str t bs : text_fits t -> lenenc (N.of_nat (length (utf8_encode t))) bs ->
  runs read_len_enc_str (bs ++ utf8_encode t) t.
Proof.
  intros Ht Hb. unfold read_len_enc_str. eapply runs_bind; [apply runs_lenenc; exact Hb|]. now apply runs_string.
Qed.
Lemma psafe_string n : n <= isize_max -> psafe (read_string n).
Proof.
  intros H. apply psafe_bind; [now apply psafe_read_bytes|]. intros bs. apply psafe_lift, from_utf8_returns.
Qed.
Lemma utf8_char_nul c : In (n2b 0) (utf8_char c) -> scalar c = true -> c = 0.
Proof.
  assert (Hz : forall x, 0 < x -> x < 256 -> n2b 0 = n2b x -> False).
  { intros x H1 H2 E. apply (f_equal b2n) in E. rewrite !b2n_n2b in E by lia. lia. }
  unfold utf8_char, scalar. intros Hi Hs.
  destruct (N.ltb_spec c 128).
  - destruct Hi as [E|[]]. symmetry in E. destruct (N.eq_dec c 0); [assumption|]. exfalso. apply (Hz c); lia || assumption.
  - destruct (N.ltb_spec c 2048); [|destruct (N.ltb_spec c 65536)];
      repeat (destruct Hi as [E|Hi]; [symmetry in E; exfalso; revert E; apply Hz; lia|]); destruct Hi.
Qed.
Lemma utf8_no_nul t : valid_text t -> ~ In 0 t -> ~ In (n2b 0) (utf8_encode t).
Proof.
  intros Hv Hn Hi. unfold utf8_encode in Hi. apply in_flat_map in Hi. destruct Hi as (c & Hc & Hi).
  apply Hn. unfold valid_text in Hv. rewrite Forall_forall in Hv. rewrite <- (utf8_char_nul c Hi (Hv c Hc)). exact Hc.
Qed.
Lemma runs_null_string t : valid_text t -> ~ In 0 t -> runs read_null_term_string (utf8_encode t ++ [n2b 0]) t.
Proof.
  intros Hv Hn. unfold read_null_term_string. eapply runs_bind_last; [apply runs_read_until; now apply utf8_no_nul|].
  rewrite removelast_last. apply runs_lift. now apply from_utf8_encode.
Qed.

(* ---- bitmaps ---- *)
Lemma testbit_low a b i : b < 256 -> (i < 8)%N -> N.testbit (b + 256 * a) i = N.testbit b i.
Proof.
  intros Hb Hi. replace (N.testbit b i) with (N.testbit (b mod 2 ^ 8) i) by (rewrite N.mod_small by exact Hb; reflexivity).
  replace (N.testbit (b + 256 * a) i) with (N.testbit ((b + 256 * a) mod 2 ^ 8) i) by (rewrite N.mod_pow2_bits_low by exact Hi; reflexivity).
  f_equal. change (2 ^ 8) with 256. rewrite N.mul_comm, N.mod_add by lia. reflexivity.
Qed.
Lemma testbit_high a b i : b < 256 -> N.testbit (b + 256 * a) (8 + i) = N.testbit a i.
Proof.
  intros Hb. replace (8 + i) with (i + 8) by lia. rewrite <- N.div_pow2_bits. f_equal. change (2 ^ 8) with 256. lia.
Qed.
Definition number_bits (n : N) (k : nat) : list bool := map (fun i => N.testbit n (N.of_nat i)) (seq 0 k).
Lemma bits_le_number bs : flat_map bits_le bs = number_bits (le_dec bs) (8 * length bs).
Proof.
  unfold number_bits. induction bs as [|b bs IH]; [reflexivity|]. cbn [flat_map le_dec length]. rewrite IH.
  replace (8 * S (length bs))%nat with (8 + 8 * length bs)%nat by lia. rewrite seq_app, map_app. f_equal.
  - unfold bits_le. cbn [seq map]. pose proof (b2n_lt b).
    rewrite !testbit_low by first [assumption | reflexivity]. reflexivity.
  - replace (seq (0 + 8) (8 * length bs)) with (map (fun i => (8 + i)%nat) (seq 0 (8 * length bs))).
    + rewrite map_map. apply map_ext. intros i. rewrite <- (testbit_high (le_dec bs) (b2n b)) by apply b2n_lt. f_equal. lia.
    + cbn [Nat.add]. generalize (8 * length bs)%nat as k. intros k. rewrite <- !seq_shift, !map_map.
      apply map_ext. reflexivity.
Qed.
Lemma bits_val_testbit bs i : N.testbit (bits_val bs) (N.of_nat i) = nth i bs false.
Proof.
  revert i. induction bs as [|b bs IH]; intros i; cbn [bits_val].
  - rewrite N.bits_0. now destruct i.
  - destruct i as [|i]; cbn [nth].
    + change (N.of_nat 0) with 0. destruct b; cbn [N.b2n]; [rewrite N.add_comm; apply N.testbit_odd_0|].
      rewrite N.add_0_l. apply N.testbit_even_0.
    + rewrite Nat2N.inj_succ, <- IH. destruct b; cbn [N.b2n].
      * rewrite N.add_comm. apply N.testbit_odd_succ. lia.
      * rewrite N.add_0_l. apply N.testbit_even_succ. lia.
Qed.
Lemma bits_val_lt bs : bits_val bs < 2 ^ N.of_nat (length bs).
Proof.
  induction bs as [|b bs IH]; [reflexivity|]. cbn [bits_val length]. rewrite Nat2N.inj_succ, N.pow_succ_r'.
  destruct b; cbn [N.b2n]; lia.
Qed.
Lemma number_bits_val bs : number_bits (bits_val bs) (length bs) = bs.
Proof.
  unfold number_bits. rewrite (map_ext _ (fun i => nth i bs false)) by (intros; apply bits_val_testbit).
  induction bs as [|b bs IH]; [reflexivity|]. cbn [length seq map nth]. f_equal. rewrite <- seq_shift, map_map. exact IH.
Qed.
Lemma bitmap_len_N n : N.to_nat ((N.of_nat n + 7) / 8) = bitmap_len n.
Proof. unfold bitmap_len. lia. Qed.
Lemma bits_val_small bits pad : padded bits pad -> bits_val (bits ++ pad) < 256 ^ N.of_nat (bitmap_len (length bits)).
Proof.
  intros H. change 256 with (2 ^ 8). rewrite <- N.pow_mul_r.
  replace (8 * N.of_nat (bitmap_len (length bits))) with (N.of_nat (length (bits ++ pad))) by (rewrite H; lia).
  apply bits_val_lt.
Qed.
Lemma bitmap_bits bits pad : padded bits pad -> flat_map bits_le (bitmap bits pad) = bits ++ pad.
Proof.
  intros H. unfold bitmap. rewrite bits_le_number, le_enc_length, le_dec_enc_small by now apply bits_val_small.
  rewrite <- H. apply number_bits_val.
Qed.
Lemma bitmap_length bits pad : length (bitmap bits pad) = bitmap_len (length bits).
Proof. apply le_enc_length. Qed.
Lemma runs_bitmap bits pad n : padded bits pad -> N.of_nat (length bits) = n -> n <= isize_max ->
  runs (read_bitmap_le n) (bitmap bits pad) bits.
Proof.
  intros Hp <- Hm. unfold read_bitmap_le. eapply runs_bind_nil; [apply runs_lift; now apply alloc_ok|].
  eapply runs_bind_last; [apply runs_read_bytes; [rewrite bitmap_length; unfold bitmap_len; lia|unfold isize_max in *; lia]|].
  rewrite bitmap_bits by exact Hp. rewrite Nat2N.id, firstn_app_exact. apply runs_ret.
Qed.
Lemma runs_bitmap_be bits pad n : padded bits pad -> N.of_nat (length bits) = n -> n <= isize_max ->
  runs (read_bitmap_be n) (bitmap_be bits pad) bits.
Proof.
  intros Hp <- Hm. unfold read_bitmap_be. eapply runs_bind_nil; [apply runs_lift; now apply alloc_ok|].
  eapply runs_bind_last; [apply runs_read_bytes; [unfold bitmap_be; rewrite be_enc_length; unfold bitmap_len; lia|unfold isize_max in *; lia]|].
  unfold bitmap_be, be_enc. rewrite rev_involutive. fold (bitmap bits pad). rewrite bitmap_bits by exact Hp.
  rewrite Nat2N.id, firstn_app_exact. apply runs_ret.
Qed.
(* every byte string is the encoding of exactly the bits it holds *)
Lemma bitmap_of_bytes bs : exists bits, length bits = (8 * length bs)%nat /\ le_enc (length bs) (bits_val bits) = bs.
Proof.
  exists (number_bits (le_dec bs) (8 * length bs)). split; [unfold number_bits; now rewrite map_length, seq_length|].
  transitivity (le_enc (length bs) (le_dec bs)); [|apply le_enc_dec]. apply f_equal. apply N.bits_inj. intros i.
  rewrite <- (N2Nat.id i). rewrite bits_val_testbit. unfold number_bits.
  destruct (Nat.ltb_spec (N.to_nat i) (8 * length bs)) as [Hi|Hi].
  - rewrite nth_indep with (d' := N.testbit (le_dec bs) (N.of_nat 0)) by now rewrite map_length, seq_length.
    rewrite (map_nth (fun i => N.testbit (le_dec bs) (N.of_nat i)) (seq 0 (8 * length bs)) 0%nat).
    rewrite seq_nth by exact Hi. reflexivity.
  - rewrite nth_overflow by (rewrite map_length, seq_length; exact Hi). symmetry.
    destruct (N.eq_dec (le_dec bs) 0) as [->|Hn]; [apply N.bits_0|]. apply N.bits_above_log2.
    apply N.log2_lt_pow2; [lia|]. eapply N.lt_le_trans; [apply le_dec_lt|].
    change 256 with (2 ^ 8). rewrite <- N.pow_mul_r. apply N.pow_le_mono_r; lia.
Qed.
Lemma psafe_bitmap n : n <= isize_max -> psafe (read_bitmap_le n).
Proof.
  intros H. unfold read_bitmap_le. apply psafe_bind; [apply psafe_lift; now rewrite alloc_ok|]. intros _.
  apply psafe_bind; [apply psafe_read_bytes; unfold isize_max in *; lia|]. intros. apply psafe_ret.
Qed.

(* ---- strings without terminator ---- *)
Lemma utf8_decode_after t : forall x, valid_text t -> utf8_decode (utf8_encode t ++ x) = option_map (app t) (utf8_decode x).
Proof.
  induction t as [|c t IH]; intros x H; [cbn [utf8_encode flat_map app]; now destruct (utf8_decode x)|]. inversion H as [|? ? Hc Ht]; subst. cbn [utf8_encode flat_map]. rewrite <- app_assoc.
  rewrite utf8_decode_char by exact Hc. fold (utf8_encode t). rewrite IH by exact Ht. now destruct (utf8_decode x).
Qed.
Lemma utf8_char_cut c : scalar c = true -> utf8_decode (removelast (utf8_char c)) = if c <? 128 then Some [] else None.
Proof.
  unfold scalar. intros Hs. unfold utf8_char. destruct (N.ltb_spec c 128); [reflexivity|].
  destruct (N.ltb_spec c 2048).
  { cbn [removelast utf8_decode]. rewrite b2n_n2b by lia. destruct (N.ltb_spec (192 + c / 64) 128); [lia|reflexivity]. }
  destruct (N.ltb_spec c 65536).
  { cbn [removelast utf8_decode]. rewrite b2n_n2b by lia. destruct (N.ltb_spec (224 + c / 4096) 128); [lia|].
    destruct ((194 <=? 224 + c / 4096) && (224 + c / 4096 <? 224)) eqn:E; [lia|reflexivity]. }
  cbn [removelast utf8_decode]. rewrite b2n_n2b by lia. destruct (N.ltb_spec (240 + c / 262144) 128); [lia|].
  destruct ((194 <=? 240 + c / 262144) && (240 + c / 262144 <? 224)) eqn:E; [lia|].
  destruct ((224 <=? 240 + c / 262144) && (240 + c / 262144 <? 240)) eqn:E2; [lia|reflexivity].
Qed.
Lemma removelast_app_ne {A} (a b : list A) : b <> [] -> removelast (a ++ b) = a ++ removelast b.
Proof. intros H. now apply removelast_app. Qed.
Lemma null_string_open t c pre : valid_text (t ++ [c]) -> ~ In 0 (t ++ [c]) ->
  read_null_term_string (pre ++ utf8_encode (t ++ [c])) (length pre) =
  if c <? 128 then Ok (t, (length pre + length (utf8_encode (t ++ [c])))%nat) else Err EFromUtf8.
Proof.
  intros Hv Hn. unfold read_null_term_string, pbind, read_until. rewrite skipn_app, skipn_all, Nat.sub_diag. cbn [app skipn].
  rewrite until_missing by now apply utf8_no_nul. cbv zeta. unfold lift, from_utf8.
  apply Forall_app in Hv. destruct Hv as [Ht Hc]. inversion Hc as [|? ? Hc' _]; subst.
  assert (R : removelast (utf8_encode (t ++ [c])) = utf8_encode t ++ removelast (utf8_char c)).
  { rewrite utf8_encode_app. cbn [utf8_encode flat_map]. rewrite app_nil_r. apply removelast_app_ne. unfold utf8_char.
    destruct (c <? 128); [discriminate|]. destruct (c <? 2048); [discriminate|]. destruct (c <? 65536); discriminate. }
  rewrite R, utf8_decode_after by exact Ht. rewrite utf8_char_cut by exact Hc'. destruct (c <? 128); cbn [option_map]; [|reflexivity]. now rewrite app_nil_r.
Qed.
