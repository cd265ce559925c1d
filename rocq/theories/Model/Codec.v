(* src/extensions.rs: strings, length-encoded integers and bitmaps. *)
From Coq Require Import Strings.String.
From Verif Require Import Base.Tac Base.Bytes Base.Text Base.Res Base.Str Base.Parse.
Local Open Scope N_scope.

(* extensions.rs:46-51 read_null_term_string: read_until 0, then vec.pop() drops the last byte whatever it is *)
Definition read_null_term_string : parser text :=
  bs <- read_until (n2b 0) ;; lift (from_utf8 (removelast bs)).

(* extensions.rs:53-60 write_null_term_string: the bytes appended to the growing buffer *)
Definition write_null_term_string (t : text) : list byte := utf8_encode t ++ [n2b 0].

(* extensions.rs:62-66 *)
Definition read_string (size : N) : parser text :=
  bs <- read_bytes size ;; lift (from_utf8 bs).

Definition null_length : text := tx "Length encoded integer cannot be NULL.".
Definition bad_length (b : N) : text := tx "Unexpected length-encoded integer: " ++ dec_text b.
(* extensions.rs:78-97 (usize is 64 bits) *)
Definition read_len_enc_num : parser N :=
  b <- read_u8 ;;
  if b <? 0xFB then ret b
  else if b =? 0xFB then fail (EString null_length)
  else if b =? 0xFC then read_u16
  else if b =? 0xFD then read_u24
  else if b =? 0xFE then read_u64
  else fail (EString (bad_length b)).

(* extensions.rs:68-71 *)
Definition read_len_enc_str : parser text :=
  n <- read_len_enc_num ;; read_string n.

(* bit y of a byte, y = 0..7: (value & (1 << y)) > 0 *)
Definition bits_le (b : byte) : list bool := map (N.testbit (b2n b)) [0; 1; 2; 3; 4; 5; 6; 7].

(* extensions.rs:100-117 read_bitmap_little_endian: result[8*i+y] = bit y of byte i, for indices below bits_number.
   The byte-wise reads are one read_bytes here (same bytes, same end-of-file error; the bit list is only built
   when all bytes were there).  vec![false; bits_number] panics above isize::MAX. *)
Definition read_bitmap_le (bits : N) : parser (list bool) :=
  lift (alloc bits) ;;;
  bs <- read_bytes ((bits + 7) / 8) ;;
  ret (firstn (N.to_nat bits) (flat_map bits_le bs)).

(* extensions.rs:120-137 read_bitmap_big_endian: result[8*(n-1-i)+y] = bit y of byte i (n bytes), for indices below
   bits_number; same remarks *)
Definition read_bitmap_be (bits : N) : parser (list bool) :=
  lift (alloc bits) ;;;
  bs <- read_bytes ((bits + 7) / 8) ;;
  ret (firstn (N.to_nat bits) (flat_map bits_le (rev bs))).
