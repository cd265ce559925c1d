(* Cells of row events. *)
From Verif Require Import Base.Tac Base.Bytes Base.Text Base.Res Base.Str Base.Parse Base.Loop Model.Codec Model.Values Model.Decimal
  Model.Cells Spec.CodecSpec Spec.CellSpec Proofs.CodecProofs Proofs.DecimalProofs.
Local Open Scope N_scope.

Lemma runs_frac bl fsp us : usec_ok fsp us -> runs (parse_fractional bl fsp) (usec_bytes fsp us) us.
Proof.
  intros (H1 & H2 & H3). unfold parse_fractional, usec_bytes. set (k := frac_len fsp).
  assert (Ek : (fsp + 1) / 2 = N.of_nat k) by (unfold k, frac_len; lia).
  eapply runs_bind_nil; [apply runs_lift, uadd_ok; lia|]. cbv beta zeta. rewrite Ek.
  assert (Hk : (k <= 3)%nat) by lia.
  assert (D : us / 100 ^ (3 - N.of_nat k) * 100 ^ (3 - N.of_nat k) = us).
  { assert (C : fsp = 0 \/ fsp = 1 \/ fsp = 2 \/ fsp = 3 \/ fsp = 4 \/ fsp = 5 \/ fsp = 6) by lia.
    clear Ek Hk. destruct C as [->|[->|[->|[->|[->|[->| ->]]]]]]; vm_compute in k; unfold k in *; clear k;
      [change (10 ^ (6 - 0)) with 1000000 in H3 | change (10 ^ (6 - 1)) with 100000 in H3; change (100 ^ (3 - N.of_nat 1)) with 10000
      | change (10 ^ (6 - 2)) with 10000 in H3; change (100 ^ (3 - N.of_nat 1)) with 10000 | change (100 ^ (3 - N.of_nat 2)) with 100; change (10 ^ (6 - 3)) with 1000 in H3
      | change (100 ^ (3 - N.of_nat 2)) with 100; change (10 ^ (6 - 4)) with 100 in H3 | change (100 ^ (3 - N.of_nat 3)) with 1 | change (100 ^ (3 - N.of_nat 3)) with 1]; try lia.
    change (100 ^ (3 - N.of_nat 0)) with 1000000. lia. }
  destruct (N.eqb_spec (N.of_nat k) 0) as [Hz|Hz].
  - replace k with 0%nat by lia. change (be_enc 0 _) with (@nil byte).
    assert (us = 0). { assert (fsp = 0) by lia. subst fsp. change (10 ^ (6 - 0)) with 1000000 in H3. lia. } subst us. apply runs_ret.
  - assert (B : us / 100 ^ (3 - N.of_nat k) < 256 ^ N.of_nat k).
    { assert (C : k = 1%nat \/ k = 2%nat \/ k = 3%nat) by lia. clear D Ek Hk. destruct C as [E|[E|E]]; rewrite E.
      - change (100 ^ (3 - N.of_nat 1)) with 10000. change (256 ^ N.of_nat 1) with 256. lia.
      - change (100 ^ (3 - N.of_nat 2)) with 100. change (256 ^ N.of_nat 2) with 65536. lia.
      - change (100 ^ (3 - N.of_nat 3)) with 1. change (256 ^ N.of_nat 3) with 16777216. lia. }
    eapply runs_bind_last; [apply runs_uint_be; [lia|exact B]|]. cbv beta.
    destruct (N.leb_spec (N.of_nat k) 3); [|lia]. apply runs_lift. rewrite umul_ok; [now rewrite D|]. rewrite D. unfold u64max1. lia.
Qed.

Lemma bits_rev_bit bits : (length bits < 2048)%nat ->
  runs (parse_bit (bit_metadata (length bits))) (bit_bytes bits) bits.
Proof.
  intros L. unfold parse_bit, bit_bytes, bit_metadata. cbv zeta.
  assert (Hb : N.of_nat (length bits / 8) < 256) by lia.
  replace ((256 * N.of_nat (length bits / 8) + N.of_nat (length bits mod 8)) / 256 * 8 + (256 * N.of_nat (length bits / 8) + N.of_nat (length bits mod 8)) mod 256)
    with (N.of_nat (length (rev bits))) by (rewrite rev_length; lia).
  set (pad := repeat false (8 * bitmap_len (length bits) - length bits)).
  assert (Z : forall k, bits_val (repeat false k) = 0) by (induction k as [|k IH]; [reflexivity|]; cbn [repeat bits_val]; rewrite IH; reflexivity).
  assert (V : forall a k, bits_val (a ++ repeat false k) = bits_val a).
  { intros a k. induction a as [|x a IH]; cbn [app bits_val]; [apply Z|now rewrite IH]. }
  assert (E : be_enc (bitmap_len (length bits)) (bits_val (rev bits)) = bitmap_be (rev bits) pad).
  { unfold bitmap_be. rewrite rev_length. f_equal. unfold pad. now rewrite V. }
  rewrite E. eapply runs_bind_last.
  - apply runs_bitmap_be; [|reflexivity|unfold isize_max; rewrite rev_length; lia]. unfold padded, pad. rewrite app_length, repeat_length, rev_length.
    unfold bitmap_len. lia.
  - rewrite rev_involutive. apply runs_ret.
Qed.

Lemma runs_parse_string m t : valid_text t -> N.of_nat (length (utf8_encode t)) < 256 ^ (if m <? 256 then 1 else 2) ->
  runs (parse_string m) (le_enc (if m <? 256 then 1 else 2) (N.of_nat (length (utf8_encode t))) ++ utf8_encode t) t.
Proof.
  intros Hv Hl. unfold parse_string. destruct (m <? 256); (eapply runs_bind; [first [apply runs_u8 | apply runs_u16]; exact Hl|]);
    apply runs_string; try reflexivity; (split; [exact Hv|]).
  - change (256 ^ 1) with 256 in Hl. lia.
  - change (256 ^ 2) with 65536 in Hl. lia.
Qed.

Lemma pow256_small m : 1 <= m <= 8 -> N.of_nat (N.to_nat m) = m /\ (1 <= N.to_nat m <= 8)%nat.
Proof. lia. Qed.
Lemma pow256_mono a b : a <= b -> 256 ^ a <= 256 ^ b.
Proof. intros H. apply N.pow_le_mono_r; lia. Qed.

Ltac rb tac := eapply runs_bind_last; [tac|cbv beta; apply runs_ret].
Theorem runs_cell bl ty m v bs : cell ty m v bs -> runs (parse_cell bl ty m) bs v.
Proof.
  intros H. unfold parse_cell. destruct H.
  all: try (eapply runs_bind_nil; [apply runs_lift; reflexivity|]; cbv iota).
  - rb ltac:(apply runs_u8; assumption).
  - rb ltac:(apply runs_u16; assumption).
  - rb ltac:(apply runs_u24; assumption).
  - rb ltac:(apply runs_u32; assumption).
  - rb ltac:(apply runs_u64; assumption).
  - rb ltac:(apply runs_u32; assumption).
  - rb ltac:(apply runs_u64; assumption).
  - rb ltac:(apply runs_decimal; assumption).
  - cbn [In] in H. destruct H as [<-|[<-|[<-|[]]]]; (eapply runs_bind_nil; [apply runs_lift; reflexivity|]; cbv iota);
      rb ltac:(apply runs_parse_string; assumption).
  - rb ltac:(apply bits_rev_bit; assumption).
  - destruct (pow256_small m ltac:(lia)) as [E1 E2]. rewrite <- E1 at 1.
    eapply runs_bind_last; [apply runs_uint_le; [exact E2|rewrite E1; exact H0]|]. cbv beta.
    assert (n < u32max1). { eapply N.lt_le_trans; [exact H0|]. eapply N.le_trans; [apply (pow256_mono m 4); lia|]. vm_compute. discriminate. }
    rewrite N.mod_small by assumption. apply runs_ret.
  - destruct (pow256_small m H) as [E1 E2]. rewrite <- E1 at 1. rb ltac:(apply runs_uint_le; [exact E2|rewrite E1; exact H0]).
  - destruct (pow256_small m ltac:(lia)) as [E1 E2].
    assert (R : runs (parse_blob m) (le_enc (N.to_nat m) (N.of_nat (length bs)) ++ bs) bs).
    { unfold parse_blob. rewrite <- E1 at 1. eapply runs_bind; [apply runs_uint_le; [exact E2|rewrite E1; exact H1]|]. cbv beta.
      apply runs_read_bytes; [reflexivity|]. pose proof (pow256_mono m 4 ltac:(lia)). change (256 ^ 4) with 4294967296 in *. unfold isize_max. lia. }
    cbn [In] in H. destruct H as [<-|[<-|[<-|[<-|[<-|[<-|[]]]]]]]; (eapply runs_bind_nil; [apply runs_lift; reflexivity|]; cbv iota); rb ltac:(exact R).
  - unfold parse_year. eapply runs_bind_last; [eapply runs_bind_last; [apply runs_u8_byte|apply runs_ret]|]. cbv beta.
    rewrite b2n_n2b by lia. replace (1900 + (y - 1900)) with y by lia. apply runs_ret.
  - unfold parse_date. eapply runs_bind_last; [eapply runs_bind_last; [apply runs_u24; lia|apply runs_ret]|]. cbv beta.
    set (v := 512 * y + 32 * mo + d). replace (v / 512) with y by (unfold v; lia). replace (v / 32 mod 16) with mo by (unfold v; lia).
    replace (v mod 32) with d by (unfold v; lia). apply runs_ret.
  - unfold parse_time. set (v := 10000 * h + 100 * mi + s). assert (Hv : v < 8388608) by (unfold v; lia).
    eapply runs_bind_last; [eapply runs_bind_last; [apply runs_u24; lia|]|].
    + cbv beta. unfold to_signed. destruct (N.ltb_spec v (2 ^ (24 - 1))) as [_|X]; [|change (2 ^ (24 - 1)) with 8388608 in X; lia].
      destruct (Z.ltb_spec (Z.of_N v) 0); [lia|]. apply runs_ret.
    + cbv beta. replace (v / 100 / 100) with h by (unfold v; lia). replace (v / 100 mod 100) with mi by (unfold v; lia).
      replace (v mod 100) with s by (unfold v; lia). apply runs_ret.
  - unfold parse_date_time. set (v := 10000000000 * y + 100000000 * mo + 1000000 * d + 10000 * h + 100 * mi + s).
    eapply runs_bind_last; [eapply runs_bind_last; [apply runs_u64; unfold v; lia|apply runs_ret]|]. cbv beta.
    replace (v / 10000000000 mod 65536) with y by (unfold v; lia). replace (v / 100000000 mod 100) with mo by (unfold v; lia).
    replace (v / 1000000 mod 100) with d by (unfold v; lia). replace (v / 10000 mod 100) with h by (unfold v; lia).
    replace (v / 100 mod 100) with mi by (unfold v; lia). replace (v mod 100) with s by (unfold v; lia). apply runs_ret.
  - unfold parse_timestamp. eapply runs_bind_last; [eapply runs_bind_last; [apply runs_u32; assumption|apply runs_ret]|]. cbv beta.
    replace (s * 1000) with (1000 * s) by lia. apply runs_ret.
  - unfold parse_time2. set (v := 8388608 + 4096 * h + 64 * mi + s).
    eapply runs_bind_last; [eapply runs_bind; [apply runs_read_be; [change (256 ^ N.of_nat 3) with 16777216; unfold v; lia|unfold isize_max; lia]|]|].
    + cbv beta. eapply runs_bind_last; [now apply runs_frac|]. cbv beta zeta. change (2 ^ 23) with 8388608.
      destruct (N.eqb_spec (v / 8388608 mod 2) 0) as [X|_]; [unfold v in X; lia|]. apply runs_ret.
    + cbv beta. destruct H2 as (_ & U & _). replace (v / 4096 mod 1024) with h by (unfold v; lia). replace (v / 64 mod 64) with mi by (unfold v; lia).
      replace (v mod 64) with s by (unfold v; lia). rewrite N.mod_small by (unfold u32max1; lia). apply runs_ret.
  - unfold parse_date_time2. set (v := 549755813888 + 4194304 * (13 * y + mo) + 131072 * d + 4096 * h + 64 * mi + s).
    change 5 with (N.of_nat 5) at 1.
    eapply runs_bind_last; [eapply runs_bind; [apply runs_uint_be; [lia|change (256 ^ N.of_nat 5) with 1099511627776; unfold v; lia]|]|].
    + cbv beta. eapply runs_bind_last; [now apply runs_frac|]. cbv beta zeta. apply runs_ret.
    + cbv beta. destruct H5 as (_ & U & _). change (2 ^ 22) with 4194304. change (2 ^ 17) with 131072.
      assert (E : v / 4194304 mod 131072 = 13 * y + mo) by (unfold v; lia). rewrite E.
      replace ((13 * y + mo) / 13) with y by lia. replace ((13 * y + mo) mod 13) with mo by lia.
      replace (v / 131072 mod 32) with d by (unfold v; lia). replace (v / 4096 mod 32) with h by (unfold v; lia).
      replace (v / 64 mod 64) with mi by (unfold v; lia). replace (v mod 64) with s by (unfold v; lia).
      rewrite N.mod_small by (unfold u32max1; lia). apply runs_ret.
  - unfold parse_timestamp2.
    eapply runs_bind_last; [eapply runs_bind; [apply runs_read_be; [assumption|unfold isize_max; lia]|]|].
    + cbv beta. eapply runs_bind_last; [now apply runs_frac|]. cbv beta zeta. apply runs_lift, uadd_ok. destruct H0 as (_ & U & _). unfold u64max1. lia.
    + cbv beta. replace (s * 1000) with (1000 * s) by lia. apply runs_ret.
Qed.

(* ---- negative times ---- *)
Lemma be_enc_app a b n : be_enc (a + b) n = be_enc a (n / 256 ^ N.of_nat b) ++ be_enc b n.
Proof.
  revert a. induction b as [|b IH]; intros a.
  - rewrite Nat.add_0_r. change (256 ^ N.of_nat 0) with 1. rewrite N.div_1_r. change (be_enc 0 n) with (@nil byte). now rewrite app_nil_r.
  - replace (a + S b)%nat with (S a + b)%nat by lia. rewrite IH. rewrite (be_enc_S b n).
    change (n2b (n / 256 ^ N.of_nat b) :: be_enc b n) with ([n2b (n / 256 ^ N.of_nat b)] ++ be_enc b n). rewrite app_assoc. f_equal.
    unfold be_enc. cbn [le_enc rev]. f_equal. f_equal. f_equal. rewrite N.div_div by (try lia; pose proof (pow256_pos b); lia).
    rewrite pow256_S. f_equal. lia.
Qed.
Lemma to_signed_neg v : 8388608 <= v -> v < 16777216 -> (to_signed 24 v < 0)%Z.
Proof.
  intros H1 H2. unfold to_signed. change (2 ^ (24 - 1)) with 8388608. change (2 ^ 24)%Z with 16777216%Z. destruct (N.ltb_spec v 8388608); [lia|].
  try change (2 ^ 24) with 16777216. lia.
Qed.
Lemma be_enc_mod k n : be_enc k n = be_enc k (n mod 256 ^ N.of_nat k).
Proof.
  pose proof (be_enc_dec (be_enc k n)) as H. rewrite be_enc_length in H. rewrite <- H at 1. f_equal.
  unfold be_dec, be_enc. rewrite rev_involutive. apply le_dec_enc.
Qed.

Lemma frac_reads bl fsp n pre post : fsp <= 6 -> n < 256 ^ N.of_nat (frac_len fsp) ->
  exists f, parse_fractional bl fsp (pre ++ be_enc (frac_len fsp) n ++ post) (length pre) = Ok (f, (length pre + frac_len fsp)%nat).
Proof.
  intros H1 H2. unfold parse_fractional, pbind at 1. rewrite (uadd_ok 65536 bl fsp 1 ltac:(lia)). unfold lift at 1. cbv zeta.
  assert (E : (fsp + 1) / 2 = N.of_nat (frac_len fsp)) by (unfold frac_len; lia). rewrite E.
  assert (Hk : (frac_len fsp <= 3)%nat) by (unfold frac_len; lia). clear E H1. set (k := frac_len fsp) in *.
  destruct (N.eqb_spec (N.of_nat k) 0) as [Hz|Hz].
  - exists 0. unfold ret. replace k with 0%nat by lia. now rewrite Nat.add_0_r.
  - unfold pbind. rewrite (runs_uint_be k n ltac:(lia) H2). destruct (N.leb_spec (N.of_nat k) 3); [|lia].
    assert (M : n * 100 ^ (3 - N.of_nat k) < u64max1).
    { assert (C : k = 1%nat \/ k = 2%nat \/ k = 3%nat) by lia. destruct C as [C|[C|C]]; rewrite C in *.
      - change (256 ^ N.of_nat 1) with 256 in H2. change (100 ^ (3 - N.of_nat 1)) with 10000. unfold u64max1. lia.
      - change (256 ^ N.of_nat 2) with 65536 in H2. change (100 ^ (3 - N.of_nat 2)) with 100. unfold u64max1. lia.
      - change (256 ^ N.of_nat 3) with 16777216 in H2. change (100 ^ (3 - N.of_nat 3)) with 1. unfold u64max1. lia. }
    rewrite (umul_ok _ bl _ _ M). unfold lift. eexists. rewrite be_enc_length. reflexivity.
Qed.
