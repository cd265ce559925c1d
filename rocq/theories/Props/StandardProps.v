(* Claimed properties of the elementary readings that the other statements take from Base: C104. *)
From Coq Require Import Strings.String Sorting.Permutation Sorting.Sorted.
From Verif Require Import Base.Tac Base.Bytes Base.Text Base.Res Base.Str Base.Parse Spec.StandardSpec Props.CodecProps.
Local Open Scope N_scope.

(* ---- byte order ---- *)
Lemma sum_app a b : sum (a ++ b) = sum a + sum b.
Proof. induction a as [|x a IH]; cbn [app sum fold_right]; [reflexivity|]. fold (sum (a ++ b)) (sum a). rewrite IH. lia. Qed.
Lemma sum_scale f l : sum (map (fun i : nat => 256 * f i) l) = 256 * sum (map f l).
Proof. induction l as [|x l IH]; cbn [map sum fold_right]; [reflexivity|]. fold (sum (map (fun i => 256 * f i) l)) (sum (map f l)). rewrite IH. lia. Qed.
Lemma pow_S i : 256 ^ N.of_nat (S i) = 256 * 256 ^ N.of_nat i.
Proof. rewrite Nat2N.inj_succ. apply N.pow_succ_r'. Qed.
Theorem C104_little : forall bs, le_dec bs = little (map b2n bs).
Proof.
  induction bs as [|b bs IH]; [reflexivity|]. cbn [le_dec map]. rewrite IH. unfold little. cbn [length seq map]. rewrite <- seq_shift, map_map.
  unfold sum at 2. cbn [fold_right nth]. match goal with |- context [fold_right N.add 0 ?l] => change (fold_right N.add 0 l) with (sum l) end.
  change (256 ^ N.of_nat 0) with 1. rewrite N.mul_1_r. f_equal. rewrite <- sum_scale. apply (f_equal sum). apply map_ext. intros i. rewrite pow_S. lia.
Qed.
Print Assumptions C104_little.
Theorem C104_big : forall bs, be_dec bs = big (map b2n bs).
Proof.
  intros bs. unfold be_dec. induction bs as [|b bs IH] using rev_ind; [reflexivity|]. rewrite rev_app_distr. cbn [rev app le_dec]. rewrite IH. unfold big.
  rewrite map_app, app_length, !map_length. cbn [map length]. rewrite Nat.add_1_r, seq_S, map_app, sum_app. cbn [map Nat.add]. unfold sum at 3. cbn [fold_right].
  rewrite app_nth2, map_length, Nat.sub_diag by (rewrite map_length; lia). cbn [nth]. replace (S (length bs) - 1 - length bs)%nat with 0%nat by lia.
  change (256 ^ N.of_nat 0) with 1. rewrite N.mul_1_r, N.add_0_r, N.add_comm. f_equal. rewrite <- sum_scale. apply (f_equal sum). apply map_ext_in. intros i I. apply in_seq in I.
  rewrite app_nth1 by (rewrite map_length; lia). replace (S (length bs) - 1 - i)%nat with (S (length bs - 1 - i)) by lia. rewrite pow_S. lia.
Qed.
Print Assumptions C104_big.
(* and writing is the inverse *)
Theorem C104_written : forall k n i, (i < k)%nat -> b2n (nth i (le_enc k n) (n2b 0)) = (n / 256 ^ N.of_nat i) mod 256 /\ be_enc k n = rev (le_enc k n).
Proof.
  intros k n i H. split; [|reflexivity]. revert n i H. induction k as [|k IH]; intros n i H; [lia|]. cbn [le_enc]. destruct i as [|i]; cbn [nth].
  - rewrite b2n_n2b_mod. change (256 ^ N.of_nat 0) with 1. now rewrite N.div_1_r.
  - rewrite IH by lia. rewrite pow_S, N.div_div by (try apply N.pow_nonzero; lia). reflexivity.
Qed.
Print Assumptions C104_written.

(* ---- two's complement: the number in range that is congruent ---- *)
Theorem C104_signed : forall k n, 0 < k -> n < 2 ^ k ->
  (- 2 ^ (Z.of_N k - 1) <= to_signed k n < 2 ^ (Z.of_N k - 1) /\ exists q, to_signed k n = Z.of_N n + q * 2 ^ Z.of_N k)%Z.
Proof.
  intros k n K H. unfold to_signed. assert (E : 2 ^ k = 2 * 2 ^ (k - 1)) by (rewrite <- N.pow_succ_r'; f_equal; lia).
  assert (Z1 : (2 ^ (Z.of_N k - 1) = Z.of_N (2 ^ (k - 1)))%Z) by (rewrite N2Z.inj_pow; f_equal; lia).
  assert (Z2 : (2 ^ Z.of_N k = Z.of_N (2 ^ k))%Z) by now rewrite N2Z.inj_pow. rewrite Z1, Z2.
  destruct (N.ltb_spec n (2 ^ (k - 1))); (split; [lia|]); [exists 0%Z|exists (-1)%Z]; lia.
Qed.
Print Assumptions C104_signed.

(* ---- UTF-8 ---- *)
Lemma char_spec c b : char_bytes c b <-> scalar c = true /\ map b2n (utf8_char c) = b.
Proof.
  unfold scalar, utf8_char. split.
  - intros H. destruct H as [a A|a b v A B E V|a b c v A B C E V S|a b c d v A B C D E V].
    + destruct (N.ltb_spec a 0x80); [|lia]. cbn [map]. rewrite b2n_n2b by lia. split; [lia|reflexivity].
    + destruct (N.ltb_spec v 0x80); [lia|]. destruct (N.ltb_spec v 0x800); [|lia]. cbn [map]. rewrite !b2n_n2b by lia. split; [lia|]. repeat f_equal; lia.
    + destruct (N.ltb_spec v 0x80); [lia|]. destruct (N.ltb_spec v 0x800); [lia|]. destruct (N.ltb_spec v 0x10000); [|lia]. cbn [map]. rewrite !b2n_n2b by lia. split; [lia|]. repeat f_equal; lia.
    + destruct (N.ltb_spec v 0x80); [lia|]. destruct (N.ltb_spec v 0x800); [lia|]. destruct (N.ltb_spec v 0x10000); [lia|]. cbn [map]. rewrite !b2n_n2b by lia. split; [lia|]. repeat f_equal; lia.
  - intros [S <-]. destruct (N.ltb_spec c 0x80); [cbn [map]; rewrite b2n_n2b by lia; now apply cb1|].
    destruct (N.ltb_spec c 0x800); [cbn [map]; rewrite !b2n_n2b by lia; apply cb2; lia|].
    destruct (N.ltb_spec c 0x10000); [cbn [map]; rewrite !b2n_n2b by lia; apply cb3; lia|].
    cbn [map]. rewrite !b2n_n2b by lia. apply cb4; lia.
Qed.
Lemma text_spec t bs : text_bytes t bs <-> valid_text t /\ map b2n (utf8_encode t) = bs.
Proof.
  split.
  - induction 1 as [|c cs b bs C T IH]; [split; [constructor|reflexivity]|]. apply char_spec in C. destruct C as [C1 C2]. destruct IH as [I1 I2].
    split; [now constructor|]. cbn [utf8_encode flat_map]. now rewrite map_app, C2, <- I2.
  - intros [V <-]. induction V as [|c cs C V IH]; [constructor|]. cbn [utf8_encode flat_map]. rewrite map_app. constructor; [now apply char_spec|exact IH].
Qed.
(* bytes are taken for a text exactly if RFC 3629 says that they are that text *)
Lemma b2n_map_inj a : forall b, map b2n a = map b2n b -> a = b.
Proof. induction a as [|x a IH]; intros [|y b] E; try discriminate E; [reflexivity|]. cbn [map] in E. injection E as E1 E2. f_equal; [|auto]. now rewrite <- (n2b_b2n x), E1, n2b_b2n. Qed.
Theorem C104_utf8 : forall bs t, from_utf8 bs = Ok t <-> text_bytes t (map b2n bs).
Proof.
  intros bs t. rewrite C36_text_iff_utf8, text_spec. split; intros [V E]; (split; [exact V|]); [now rewrite E|now apply b2n_map_inj].
Qed.
Print Assumptions C104_utf8.
(* a byte string is at most one text *)
Theorem C104_utf8_unique : forall bs t t', text_bytes t (map b2n bs) -> text_bytes t' (map b2n bs) -> t = t'.
Proof. intros bs t t' H H'. apply C104_utf8 in H, H'. congruence. Qed.
Print Assumptions C104_utf8_unique.

(* ---- the order in which GTID texts are sorted: that of the bytes ---- *)
Lemma before_head p : forall a b, before (p ++ a) (p ++ b) <-> before a b.
Proof. induction p as [|x p IH]; intros a b; [reflexivity|]. cbn [app]. etransitivity; [|apply IH]. split; [|apply be_same]. intros H. inversion H; subst; [lia|assumption]. Qed.
Lemma before_first x y a b : x <> y -> before (x :: a) (y :: b) <-> x < y.
Proof. intros N. split; [|apply be_less]. intros H. inversion H; subst; [assumption|congruence]. Qed.
(* the first byte in which two characters differ decides like the characters *)
Lemma chars_differ c d b e u v : char_bytes c b -> char_bytes d e -> c <> d -> before (b ++ u) (e ++ v) <-> c < d.
Proof.
  assert (S : forall x a b, before (x :: a) (x :: b) <-> before a b) by (intros x a b'; exact (before_head [x] a b')).
  assert (Q : forall x y z a b, x = y -> before (z + x :: a) (z + y :: b) <-> before a b) by (intros x y z a b' ->; apply S).
  assert (P : forall x y z a b, x <> y -> before (z + x :: a) (z + y :: b) <-> x < y) by (intros x y z a b' N; rewrite before_first by lia; lia).
  intros HC HD N. destruct HC; destruct HD; subst; cbn [app];
    try (rewrite before_first by lia; lia).
  - destruct (N.eq_dec a a0) as [->|A]; [rewrite S|rewrite (P a a0) by exact A; lia]. rewrite P by lia. lia.
  - destruct (N.eq_dec a a0) as [->|A]; [rewrite S|rewrite (P a a0) by exact A; lia].
    destruct (N.eq_dec b b0) as [->|B]; [rewrite S|rewrite (P b b0) by exact B; lia]. rewrite P by lia. lia.
  - destruct (N.eq_dec a a0) as [->|A]; [rewrite S|rewrite (P a a0) by exact A; lia].
    destruct (N.eq_dec b b0) as [->|B]; [rewrite S|rewrite (P b b0) by exact B; lia].
    destruct (N.eq_dec c c0) as [->|C]; [rewrite S|rewrite (P c c0) by exact C; lia]. rewrite P by lia. lia.
Qed.
Lemma char_nonempty c b : char_bytes c b -> exists x r, b = x :: r.
Proof. destruct 1; eauto. Qed.
Theorem C104_order : forall t u a b, text_bytes t a -> text_bytes u b -> text_leb t u = true <-> before a b.
Proof.
  intros t u a b T. revert u b. induction T as [|c cs x bs C T IH]; intros u b U.
  - split; [constructor|reflexivity].
  - destruct U as [|d ds y bs' D U].
    + destruct (char_nonempty _ _ C) as (z & r & ->). cbn [text_leb app]. split; [discriminate|]. intros H. inversion H.
    + cbn [text_leb]. destruct (N.eq_dec c d) as [->|N].
      * rewrite N.ltb_irrefl. apply char_spec in C, D. destruct C as [_ <-]. destruct D as [_ <-]. rewrite before_head. now apply IH.
      * rewrite (chars_differ _ _ _ _ _ _ C D N). destruct (N.ltb_spec c d); [tauto|]. destruct (N.ltb_spec d c); [|lia]. split; [discriminate|lia].
Qed.
Print Assumptions C104_order.
(* every text keeps its place after the ones that come before it, none is lost or added *)
Theorem C104_sorted : forall l, Permutation l (sort_texts l) /\ StronglySorted (fun a b => text_leb a b = true) (sort_texts l).
Proof. intros l. split; [apply sort_texts_perm|apply sort_texts_sorted]. Qed.
Print Assumptions C104_sorted.

(* ---- hexadecimal ---- *)
Lemma hex_val_spec c v : hex_val c = Some v <-> hex_digit c v.
Proof.
  unfold hex_val. split.
  - destruct (_ && _) eqn:E1; [intros H; injection H as <-; apply hd_num; lia|]. destruct (_ && _) eqn:E2 in |- *; [intros H; injection H as <-; replace (c - 87) with (10 + (c - 97)) by lia; apply hd_low; lia|].
    destruct (_ && _) eqn:E3 in |- *; [intros H; injection H as <-; replace (c - 55) with (10 + (c - 65)) by lia; apply hd_up; lia|discriminate].
  - intros [c' H|c' H|c' H].
    + replace ((48 <=? c') && (c' <=? 57)) with true by lia. reflexivity.
    + replace ((48 <=? c') && (c' <=? 57)) with false by lia. replace ((97 <=? c') && (c' <=? 102)) with true by lia. f_equal. lia.
    + replace ((48 <=? c') && (c' <=? 57)) with false by lia. replace ((97 <=? c') && (c' <=? 102)) with false by lia. replace ((65 <=? c') && (c' <=? 70)) with true by lia. f_equal. lia.
Qed.
Lemma hex_digit_small c v : hex_digit c v -> c < 128 /\ v < 16.
Proof. destruct 1; lia. Qed.
Lemma small_char c b : char_bytes c b -> (exists x r, b = x :: r /\ x < 128) -> b = [c].
Proof. intros H (x & r & E & L). destruct H; injection E as <- _; try lia; reflexivity. Qed.
Lemma hex_spec t : forall bs, hex_decode t = Some bs <-> hex_bytes t (map b2n bs).
Proof.
  assert (G : forall n t, (length t <= n)%nat -> forall bs, hex_decode t = Some bs <-> hex_bytes t (map b2n bs)).
  { induction n as [|n IH]; intros [|a [|b r]] L bs; cbn [length] in L; try lia; cbn [hex_decode]; try (split; [intros H; injection H as <-; constructor|intros H; inversion H; destruct bs; [reflexivity|discriminate]]);
      try (split; [discriminate|intros H; inversion H]).
    split.
    - destruct (hex_val a) as [x|] eqn:A; [|discriminate]. destruct (hex_val b) as [y|] eqn:B; [|discriminate]. destruct (hex_decode r) as [l|] eqn:R; [|discriminate].
      intros H. injection H as <-. apply hex_val_spec in A, B. pose proof (hex_digit_small _ _ A). pose proof (hex_digit_small _ _ B). cbn [map]. rewrite b2n_n2b by lia.
      constructor; [exact A|exact B|]. apply IH; [lia|exact R].
    - intros H. destruct bs as [|z bs]; inversion H as [|? ? x y ? ? A B R E1 E2]; subst. apply hex_val_spec in A, B. rewrite A, B. apply IH in R; [|lia]. rewrite R.
      rewrite E2. now rewrite n2b_b2n. }
  intros bs. now apply (G (length t)).
Qed.
(* hex::decode reads the bytes of the text; reading its characters comes to the same *)
Theorem C104_hex : forall t a bs, text_bytes t a -> hex_decode t = Some bs <-> hex_bytes a (map b2n bs).
Proof.
  intros t a bs T. rewrite hex_spec. split.
  - intros H. assert (A : t = a); [|now subst a]. revert H. generalize (map b2n bs). intros l H. clear bs.
    assert (F : Forall (fun c => c < 128) t). { clear T. induction H as [|x y u v cs l X Y H IH]; [constructor|]. apply hex_digit_small in X, Y. constructor; [lia|constructor; [lia|exact IH]]. }
    clear H. induction T as [|c cs b bs C T IH]; [reflexivity|]. apply Forall_cons_iff in F. destruct F as [F1 F2]. rewrite <- (IH F2).
    assert (b = [c]) as ->; [|reflexivity]. destruct C; try lia; reflexivity.
  - intros H. assert (A : t = a); [|now subst a]. assert (F : Forall (fun c => c < 128) a).
    { clear T. induction H as [|x y u v cs l X Y H IH]; [constructor|]. apply hex_digit_small in X, Y. constructor; [lia|constructor; [lia|exact IH]]. }
    clear H. induction T as [|c cs b bs' C T IH]; [reflexivity|]. apply Forall_app in F. destruct F as [F1 F2].
    assert (b = [c]) as ->. { apply small_char; [exact C|]. destruct (char_nonempty _ _ C) as (x & r & ->). exists x, r. split; [reflexivity|]. now apply Forall_cons_iff in F1. }
    cbn [app]. f_equal. now apply IH.
Qed.
Print Assumptions C104_hex.
(* what is printed has two digits per byte, in lower case *)
Theorem C104_hex_printed : forall bs, hex_bytes (hex_encode bs) (map b2n bs) /\ Forall (fun c => 48 <= c <= 57 \/ 97 <= c <= 102) (hex_encode bs).
Proof.
  assert (D : forall n, n < 16 -> hex_digit (hex_char n) n /\ (48 <= hex_char n <= 57 \/ 97 <= hex_char n <= 102)).
  { intros n H. unfold hex_char. destruct (N.ltb_spec n 10); (split; [|lia]).
    - replace n with (48 + n - 48) at 2 by lia. apply hd_num. lia.
    - replace n with (10 + (87 + n - 97)) at 2 by lia. apply hd_low. lia. }
  induction bs as [|b bs [IH1 IH2]]; [split; constructor|]. cbn [hex_encode flat_map app map]. fold (hex_encode bs). pose proof (b2n_lt b) as L.
  destruct (D (b2n b / 16) ltac:(lia)) as [D1 D2]. destruct (D (b2n b mod 16) ltac:(lia)) as [D3 D4]. split; [|constructor; [exact D2|constructor; [exact D4|exact IH2]]].
  replace (b2n b) with (16 * (b2n b / 16) + b2n b mod 16) at 3 by lia. now constructor.
Qed.
Print Assumptions C104_hex_printed.

Example C104_example : le_dec [n2b 1; n2b 2; n2b 3] = 1 + 2 * 256 + 3 * 65536 /\ little [1; 2; 3] = 197121 /\ be_dec [n2b 1; n2b 2] = 258 /\ big [1; 2] = 258 /\
  le_enc 3 197121 = [n2b 1; n2b 2; n2b 3] /\ to_signed 16 65535 = (-1)%Z /\ to_signed 24 8388608 = (-8388608)%Z /\
  from_utf8 [n2b 0xF0; n2b 0x9F; n2b 0xA6; n2b 0x80] = Ok [0x1F980] /\ from_utf8 [n2b 0xC0; n2b 0x80] = Err EFromUtf8 /\
  hex_decode (tx "7fA0") = Some [n2b 127; n2b 160] /\ hex_encode [n2b 127; n2b 160] = tx "7fa0" /\ text_leb [0xFFFD] [0x1F980] = true.
Proof. repeat split; vm_compute; reflexivity. Qed.
Example C104_example_text : text_bytes [65; 0xE9; 0x20AC; 0x1F980] [65; 0xC3; 0xA9; 0xE2; 0x82; 0xAC; 0xF0; 0x9F; 0xA6; 0x80].
Proof. apply text_spec. split; [repeat constructor|vm_compute; reflexivity]. Qed.
