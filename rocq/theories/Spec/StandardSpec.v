(* Numbers in bytes, UTF-8 (RFC 3629), two's complement, hexadecimal digits and the order of byte strings, from the standards. *)
From Verif Require Import Base.Tac Base.Bytes.
Local Open Scope N_scope.

Definition sum (l : list N) : N := fold_right N.add 0 l.
(* bytes are numbers below 256; the byte at index i counts 256^i, or 256^(length-1-i) *)
Definition little (bs : list N) : N := sum (map (fun i => nth i bs 0 * 256 ^ N.of_nat i) (seq 0 (length bs))).
Definition big (bs : list N) : N := sum (map (fun i => nth i bs 0 * 256 ^ N.of_nat (length bs - 1 - i)) (seq 0 (length bs))).

(* RFC 3629, section 3: a to d are the x bits of the table; the shortest form, no surrogates, nothing above 10FFFF *)
Inductive char_bytes : N -> list N -> Prop :=
| cb1 a : a < 128 -> char_bytes a [a]
| cb2 a b v : a < 32 -> b < 64 -> v = 64 * a + b -> 0x80 <= v -> char_bytes v [0xC0 + a; 0x80 + b]
| cb3 a b c v : a < 16 -> b < 64 -> c < 64 -> v = 4096 * a + 64 * b + c -> 0x800 <= v -> ~ (0xD800 <= v <= 0xDFFF) ->
    char_bytes v [0xE0 + a; 0x80 + b; 0x80 + c]
| cb4 a b c d v : a < 8 -> b < 64 -> c < 64 -> d < 64 -> v = 262144 * a + 4096 * b + 64 * c + d -> 0x10000 <= v <= 0x10FFFF ->
    char_bytes v [0xF0 + a; 0x80 + b; 0x80 + c; 0x80 + d].
Inductive text_bytes : list N -> list N -> Prop :=
| tb_nil : text_bytes [] []
| tb_char c cs b bs : char_bytes c b -> text_bytes cs bs -> text_bytes (c :: cs) (b ++ bs).

(* lexicographic order *)
Inductive before : list N -> list N -> Prop :=
| be_nil b : before [] b
| be_less x y a b : x < y -> before (x :: a) (y :: b)
| be_same x a b : before a b -> before (x :: a) (x :: b).

(* two hexadecimal digits for a byte, in upper or lower case *)
Inductive hex_digit : N -> N -> Prop :=
| hd_num c : 48 <= c <= 57 -> hex_digit c (c - 48)
| hd_low c : 97 <= c <= 102 -> hex_digit c (10 + (c - 97))
| hd_up c : 65 <= c <= 70 -> hex_digit c (10 + (c - 65)).
Inductive hex_bytes : list N -> list N -> Prop :=
| hb_nil : hex_bytes [] []
| hb_pair a b x y cs bs : hex_digit a x -> hex_digit b y -> hex_bytes cs bs -> hex_bytes (a :: b :: cs) (16 * x + y :: bs).
