(* Wire formats of the MySQL protocol, written from the server's point of view. *)
From Verif Require Import Base.Tac Base.Bytes Base.Text.
Local Open Scope N_scope.

(* the legal encodings of a length-encoded integer *)
Inductive lenenc : N -> list byte -> Prop :=
| lenenc1 n : n < 251 -> lenenc n [n2b n]
| lenenc3 n : n < 65536 -> lenenc n (n2b 0xFC :: le_enc 2 n)
| lenenc4 n : n < 16777216 -> lenenc n (n2b 0xFD :: le_enc 3 n)
| lenenc9 n : n < 18446744073709551616 -> lenenc n (n2b 0xFE :: le_enc 8 n).
(* the shortest one, which servers write *)
Definition lenenc_short (n : N) : list byte :=
  if n <? 251 then [n2b n]
  else if n <? 65536 then n2b 0xFC :: le_enc 2 n
  else if n <? 16777216 then n2b 0xFD :: le_enc 3 n
  else n2b 0xFE :: le_enc 8 n.

(* value of a bit string, first bit least significant *)
Fixpoint bits_val (bs : list bool) : N :=
  match bs with [] => 0 | b :: r => N.b2n b + 2 * bits_val r end.
(* a bitmap of n bits takes ceil(n/8) bytes *)
Definition bitmap_len (n : nat) : nat := (n + 7) / 8.
(* column bitmap: bit i is bit i of the little-endian number; [pad] fills the last byte *)
Definition bitmap (bits pad : list bool) : list byte := le_enc (bitmap_len (length bits)) (bits_val (bits ++ pad)).
(* the same with the bytes in reverse order (big-endian number) *)
Definition bitmap_be (bits pad : list bool) : list byte := be_enc (bitmap_len (length bits)) (bits_val (bits ++ pad)).
Definition padded (bits pad : list bool) : Prop := (length (bits ++ pad) = 8 * bitmap_len (length bits))%nat.

(* a text of at most 2^63-1 bytes, which any string in memory is *)
Definition text_fits (t : text) : Prop := valid_text t /\ N.of_nat (length (utf8_encode t)) <= 9223372036854775807.
