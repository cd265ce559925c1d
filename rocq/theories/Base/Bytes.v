(* Bytes and fixed-width little/big-endian numbers. *)
From Coq Require Import Strings.Byte.
From Verif Require Import Base.Tac.
Local Open Scope N_scope.

Notation byte := Coq.Init.Byte.byte.

(* value of a byte *)
Definition b2n (b : byte) : N := Byte.to_N b.
(* low eight bits of a number as a byte *)
Definition n2b (n : N) : byte :=
  match Byte.of_N (n mod 256) with Some b => b | None => Byte.x00 end.

Lemma b2n_lt b : b2n b < 256.
Proof. unfold b2n. pose proof (Byte.to_N_bounded b). lia. Qed.

Lemma n2b_b2n b : n2b (b2n b) = b.
Proof.
  unfold n2b. rewrite N.mod_small by apply b2n_lt.
  unfold b2n. rewrite Byte.of_to_N. reflexivity.
Qed.

Lemma b2n_n2b_mod n : b2n (n2b n) = n mod 256.
Proof.
  unfold n2b. destruct (Byte.of_N (n mod 256)) eqn:E.
  - apply Byte.to_of_N in E. exact E.
  - apply Byte.of_N_None_iff in E.
    pose proof (N.mod_lt n 256). lia.
Qed.

Lemma b2n_n2b n : n < 256 -> b2n (n2b n) = n.
Proof. intros H. rewrite b2n_n2b_mod. apply N.mod_small; exact H. Qed.

Lemma b2n_inj a b : b2n a = b2n b -> a = b.
Proof. intros H. rewrite <- (n2b_b2n a), <- (n2b_b2n b), H. reflexivity. Qed.

Lemma n2b_mod n : n2b (n mod 256) = n2b n.
Proof. unfold n2b. rewrite N.mod_mod by lia. reflexivity. Qed.

Definition byte_eqb (a b : byte) : bool := Byte.eqb a b.
Lemma byte_eqb_spec a b : reflect (a = b) (byte_eqb a b).
Proof.
  unfold byte_eqb. destruct (Byte.eqb a b) eqn:E; constructor.
  - apply Byte.byte_dec_bl in E. exact E.
  - intros ->. rewrite (Byte.byte_dec_lb (eq_refl b)) in E. discriminate.
Qed.
Lemma byte_eqb_refl a : byte_eqb a a = true.
Proof. destruct (byte_eqb_spec a a); congruence. Qed.

(* little-endian value of a byte string *)
Fixpoint le_dec (bs : list byte) : N :=
  match bs with
  | [] => 0
  | b :: r => b2n b + 256 * le_dec r
  end.

(* the low k bytes of n, least significant first *)
Fixpoint le_enc (k : nat) (n : N) : list byte :=
  match k with
  | O => []
  | S k' => n2b n :: le_enc k' (n / 256)
  end.

Definition be_dec (bs : list byte) : N := le_dec (rev bs).
Definition be_enc (k : nat) (n : N) : list byte := rev (le_enc k n).

Lemma le_enc_length k n : length (le_enc k n) = k.
Proof. revert n; induction k as [|k IH]; intros n; cbn [le_enc length]; [reflexivity|]. now rewrite IH. Qed.

Lemma be_enc_length k n : length (be_enc k n) = k.
Proof. unfold be_enc. rewrite rev_length. apply le_enc_length. Qed.

Lemma pow256_S k : 256 ^ N.of_nat (S k) = 256 * 256 ^ N.of_nat k.
Proof. rewrite Nat2N.inj_succ, N.pow_succ_r'. reflexivity. Qed.

Lemma pow256_pos k : 0 < 256 ^ N.of_nat k.
Proof. apply N.neq_0_lt_0, N.pow_nonzero. lia. Qed.

Lemma le_dec_lt bs : le_dec bs < 256 ^ N.of_nat (length bs).
Proof.
  induction bs as [|b r IH]; cbn [le_dec length].
  - cbn. lia.
  - rewrite pow256_S. pose proof (b2n_lt b). nia.
Qed.

Lemma le_dec_enc k n : le_dec (le_enc k n) = n mod 256 ^ N.of_nat k.
Proof.
  revert n; induction k as [|k IH]; intros n; cbn [le_dec le_enc].
  - cbn. now rewrite N.mod_1_r.
  - rewrite IH, b2n_n2b_mod, pow256_S.
    rewrite N.mod_mul_r; [lia | lia | pose proof (pow256_pos k); lia].
Qed.

Lemma le_dec_enc_small k n : n < 256 ^ N.of_nat k -> le_dec (le_enc k n) = n.
Proof. intros H. rewrite le_dec_enc. apply N.mod_small, H. Qed.

Lemma le_enc_dec bs : le_enc (length bs) (le_dec bs) = bs.
Proof.
  induction bs as [|b r IH]; cbn [le_dec le_enc length]; [reflexivity|].
  f_equal.
  - rewrite <- (n2b_mod (b2n b + 256 * le_dec r)).
    replace ((b2n b + 256 * le_dec r) mod 256) with (b2n b).
    + apply n2b_b2n.
    + rewrite N.mul_comm, N.mod_add by lia. symmetry. apply N.mod_small, b2n_lt.
  - replace ((b2n b + 256 * le_dec r) / 256) with (le_dec r); [exact IH|].
    rewrite N.mul_comm, N.div_add by lia.
    rewrite (N.div_small (b2n b)) by apply b2n_lt. lia.
Qed.

Lemma be_dec_enc_small k n : n < 256 ^ N.of_nat k -> be_dec (be_enc k n) = n.
Proof. intros H. unfold be_dec, be_enc. rewrite rev_involutive. now apply le_dec_enc_small. Qed.

Lemma be_dec_lt bs : be_dec bs < 256 ^ N.of_nat (length bs).
Proof. unfold be_dec. rewrite <- (rev_length bs). apply le_dec_lt. Qed.

Lemma be_enc_dec bs : be_enc (length bs) (be_dec bs) = bs.
Proof.
  unfold be_dec, be_enc. rewrite <- (rev_length bs), le_enc_dec. apply rev_involutive.
Qed.

Lemma le_dec_app a b : le_dec (a ++ b) = le_dec a + 256 ^ N.of_nat (length a) * le_dec b.
Proof.
  induction a as [|x a IH]; cbn [app le_dec length].
  - cbn [N.of_nat]. rewrite N.pow_0_r. lia.
  - rewrite IH, pow256_S. lia.
Qed.

Lemma le_enc_mod k n : le_enc k (n mod 256 ^ N.of_nat k) = le_enc k n.
Proof.
  rewrite <- le_dec_enc. rewrite <- (le_enc_length k n) at 1. apply le_enc_dec.
Qed.

Lemma le_enc_inj k m n :
  m < 256 ^ N.of_nat k -> n < 256 ^ N.of_nat k -> le_enc k m = le_enc k n -> m = n.
Proof.
  intros Hm Hn H. rewrite <- (le_dec_enc_small k m Hm), <- (le_dec_enc_small k n Hn). now rewrite H.
Qed.

(* list helpers used everywhere *)
Lemma firstn_app_exact {A} (a b : list A) : firstn (length a) (a ++ b) = a.
Proof. rewrite firstn_app, Nat.sub_diag, firstn_all. cbn. apply app_nil_r. Qed.
Lemma skipn_app_exact {A} (a b : list A) : skipn (length a) (a ++ b) = b.
Proof. rewrite skipn_app, Nat.sub_diag, skipn_all. reflexivity. Qed.
Lemma firstn_app_len {A} n (a b : list A) : length a = n -> firstn n (a ++ b) = a.
Proof. intros <-. apply firstn_app_exact. Qed.
Lemma skipn_app_len {A} n (a b : list A) : length a = n -> skipn n (a ++ b) = b.
Proof. intros <-. apply skipn_app_exact. Qed.
Lemma NoDup_app_intro {A} (a b : list A) : NoDup a -> NoDup b -> (forall x, In x a -> ~ In x b) -> NoDup (a ++ b).
Proof.
  induction 1 as [|x a Hx Ha IH]; intros Hb Hd; [exact Hb|]. cbn [app]. constructor.
  - rewrite in_app_iff. intros [H|H]; [auto|]. apply (Hd x); cbn; auto.
  - apply IH; auto. intros y Hy. apply Hd. now right.
Qed.
Lemma skipn_plus {A} a b (l : list A) : skipn (a + b) l = skipn b (skipn a l).
Proof. revert l. induction a as [|a IH]; intros l; [reflexivity|]. destruct l; [cbn [Nat.add skipn]; now rewrite skipn_nil|]. cbn [Nat.add skipn]. apply IH. Qed.
