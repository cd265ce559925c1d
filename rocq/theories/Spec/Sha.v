(* SHA-1 and SHA-256 (FIPS 180-4), for concrete instances of the hash parameters. *)
From Coq Require Import Strings.String.
From Verif Require Import Base.Tac Base.Bytes Base.Text.
Local Open Scope N_scope.

Definition w32 (n : N) : N := N.land n 4294967295.
Definition add32 (a b : N) : N := w32 (a + b).
Definition rotl (k n : N) : N := N.lor (w32 (N.shiftl n k)) (N.shiftr n (32 - k)).
Definition rotr (k n : N) : N := rotl (32 - k) n.
Definition not32 (n : N) : N := N.lxor n 4294967295.

(* padding: 0x80, zeros, length in bits as 8 bytes; words of 4 bytes, big endian *)
Definition padded (m : list byte) : list byte :=
  m ++ [n2b 0x80] ++ repeat (n2b 0) ((119 - length m mod 64) mod 64) ++ be_enc 8 (8 * N.of_nat (length m)).
Fixpoint words (fuel : nat) (bs : list byte) : list N :=
  match fuel, bs with
  | S f, _ :: _ => be_dec (firstn 4 bs) :: words f (skipn 4 bs)
  | _, _ => []
  end.
Fixpoint blocks (fuel : nat) (ws : list N) : list (list N) :=
  match fuel, ws with
  | S f, _ :: _ => firstn 16 ws :: blocks f (skipn 16 ws)
  | _, _ => []
  end.
Definition message_blocks (m : list byte) : list (list N) :=
  let p := padded m in let ws := words (length p) p in blocks (length ws) ws.

Definition at_ (l : list N) (i : nat) : N := nth i l 0.
(* the schedule is kept in reverse: head = latest word *)
Fixpoint extend (k : nat) (f : list N -> N) (rws : list N) : list N :=
  match k with O => rws | S k' => extend k' f (f rws :: rws) end.

(* ---- SHA-256 ---- *)
Definition sha256_k : list N :=
  [0x428a2f98;0x71374491;0xb5c0fbcf;0xe9b5dba5;0x3956c25b;0x59f111f1;0x923f82a4;0xab1c5ed5;
   0xd807aa98;0x12835b01;0x243185be;0x550c7dc3;0x72be5d74;0x80deb1fe;0x9bdc06a7;0xc19bf174;
   0xe49b69c1;0xefbe4786;0x0fc19dc6;0x240ca1cc;0x2de92c6f;0x4a7484aa;0x5cb0a9dc;0x76f988da;
   0x983e5152;0xa831c66d;0xb00327c8;0xbf597fc7;0xc6e00bf3;0xd5a79147;0x06ca6351;0x14292967;
   0x27b70a85;0x2e1b2138;0x4d2c6dfc;0x53380d13;0x650a7354;0x766a0abb;0x81c2c92e;0x92722c85;
   0xa2bfe8a1;0xa81a664b;0xc24b8b70;0xc76c51a3;0xd192e819;0xd6990624;0xf40e3585;0x106aa070;
   0x19a4c116;0x1e376c08;0x2748774c;0x34b0bcb5;0x391c0cb3;0x4ed8aa4a;0x5b9cca4f;0x682e6ff3;
   0x748f82ee;0x78a5636f;0x84c87814;0x8cc70208;0x90befffa;0xa4506ceb;0xbef9a3f7;0xc67178f2].
Definition x3 (a b c : N) : N := N.lxor (N.lxor a b) c.
Definition sha256_next (r : list N) : N :=
  let s1 n := x3 (rotr 17 n) (rotr 19 n) (N.shiftr n 10) in
  let s0 n := x3 (rotr 7 n) (rotr 18 n) (N.shiftr n 3) in
  add32 (add32 (s1 (at_ r 1)) (at_ r 6)) (add32 (s0 (at_ r 14)) (at_ r 15)).
Definition sha256_schedule (b : list N) : list N := rev (extend 48 sha256_next (rev b)).
Notation st8 := (N * N * N * N * N * N * N * N)%type.
Definition sha256_round (s : st8) (kw : N * N) : st8 :=
  let '(a, b, c, d, e, f, g, h) := s in
  let S1 := x3 (rotr 6 e) (rotr 11 e) (rotr 25 e) in
  let ch := N.lxor (N.land e f) (N.land (not32 e) g) in
  let t1 := add32 (add32 h S1) (add32 ch (add32 (fst kw) (snd kw))) in
  let S0 := x3 (rotr 2 a) (rotr 13 a) (rotr 22 a) in
  let maj := x3 (N.land a b) (N.land a c) (N.land b c) in
  (add32 t1 (add32 S0 maj), a, b, c, add32 d t1, e, f, g).
Definition sha256_block (s : st8) (b : list N) : st8 :=
  let '(a, b0, c, d, e, f, g, h) := s in
  let '(a', b', c', d', e', f', g', h') := fold_left sha256_round (combine sha256_k (sha256_schedule b)) s in
  (add32 a a', add32 b0 b', add32 c c', add32 d d', add32 e e', add32 f f', add32 g g', add32 h h').
Definition sha256_fips (m : list byte) : list byte :=
  let '(a, b, c, d, e, f, g, h) := fold_left sha256_block (message_blocks m)
    (0x6a09e667, 0xbb67ae85, 0x3c6ef372, 0xa54ff53a, 0x510e527f, 0x9b05688c, 0x1f83d9ab, 0x5be0cd19) in
  flat_map (be_enc 4) [a; b; c; d; e; f; g; h].

(* ---- SHA-1 ---- *)
Definition sha1_next (r : list N) : N := rotl 1 (N.lxor (x3 (at_ r 2) (at_ r 7) (at_ r 13)) (at_ r 15)).
Definition sha1_schedule (b : list N) : list N := rev (extend 64 sha1_next (rev b)).
Notation st5 := (N * N * N * N * N)%type.
Definition sha1_round (s : st5) (iw : nat * N) : st5 :=
  let '(a, b, c, d, e) := s in
  let (i, w) := iw in
  let '(f, k) :=
    if (i <? 20)%nat then (N.lxor (N.land b c) (N.land (not32 b) d), 0x5a827999)
    else if (i <? 40)%nat then (x3 b c d, 0x6ed9eba1)
    else if (i <? 60)%nat then (x3 (N.land b c) (N.land b d) (N.land c d), 0x8f1bbcdc)
    else (x3 b c d, 0xca62c1d6) in
  (add32 (add32 (rotl 5 a) f) (add32 e (add32 k w)), a, rotl 30 b, c, d).
Definition sha1_block (s : st5) (b : list N) : st5 :=
  let '(a, b0, c, d, e) := s in
  let '(a', b', c', d', e') := fold_left sha1_round (combine (seq 0 80) (sha1_schedule b)) s in
  (add32 a a', add32 b0 b', add32 c c', add32 d d', add32 e e').
Definition sha1_fips (m : list byte) : list byte :=
  let '(a, b, c, d, e) := fold_left sha1_block (message_blocks m) (0x67452301, 0xefcdab89, 0x98badcfe, 0x10325476, 0xc3d2e1f0) in
  flat_map (be_enc 4) [a; b; c; d; e].

Example sha1_abc : map b2n (sha1_fips (utf8_encode (tx "abc"))) =
  [0xa9;0x99;0x3e;0x36;0x47;0x06;0x81;0x6a;0xba;0x3e;0x25;0x71;0x78;0x50;0xc2;0x6c;0x9c;0xd0;0xd8;0x9d].
Proof. vm_compute. reflexivity. Qed.
Example sha256_abc : map b2n (sha256_fips (utf8_encode (tx "abc"))) =
  [0xba;0x78;0x16;0xbf;0x8f;0x01;0xcf;0xea;0x41;0x41;0x40;0xde;0x5d;0xae;0x22;0x23;
   0xb0;0x03;0x61;0xa3;0x96;0x17;0x7a;0x9c;0xb4;0x10;0xff;0x61;0xf2;0x00;0x15;0xad].
Proof. vm_compute. reflexivity. Qed.
(* two blocks *)
Example sha256_two_blocks : map b2n (sha256_fips (utf8_encode (tx "abcdbcdecdefdefgefghfghighijhijkijkljklmklmnlmnomnopnopq"))) =
  [0x24;0x8d;0x6a;0x61;0xd2;0x06;0x38;0xb8;0xe5;0xc0;0x26;0x93;0x0c;0x3e;0x60;0x39;
   0xa3;0x3c;0xe4;0x59;0x64;0xff;0x21;0x67;0xf6;0xec;0xed;0xd4;0x19;0xdb;0x06;0xc1].
Proof. vm_compute. reflexivity. Qed.

Lemma sha1_length m : length (sha1_fips m) = 20%nat.
Proof.
  unfold sha1_fips. destruct (fold_left sha1_block (message_blocks m) _) as [[[[a b] c] d] e].
  cbn [flat_map]. rewrite !app_length, !be_enc_length. reflexivity.
Qed.
Lemma sha256_length m : length (sha256_fips m) = 32%nat.
Proof.
  unfold sha256_fips. destruct (fold_left sha256_block (message_blocks m) _) as [[[[[[[a b] c] d] e] f] g] h].
  cbn [flat_map]. rewrite !app_length, !be_enc_length. reflexivity.
Qed.
