(* Row cells as the server writes them (MySQL: Field::pack, decimal2bin, my_time packing functions). *)
From Verif Require Import Base.Tac Base.Bytes Base.Text Base.Res Base.Str Model.Values Spec.CodecSpec.
Local Open Scope N_scope.

(* ---- DECIMAL: digit characters, most significant first; [ds] integral, [fs] fractional ---- *)
Definition all_digits (t : text) : Prop := forallb is_digit t = true.
(* bytes taken by a group of fewer than nine digits *)
Definition bytes_for (k : nat) : nat := match k with 0 => 0 | 1 | 2 => 1 | 3 | 4 => 2 | 5 | 6 => 3 | _ => 4 end%nat.
Fixpoint nines (k : nat) (t : text) : list text :=
  match k with O => [] | S k' => firstn 9 t :: nines k' (skipn 9 t) end.
Definition full_groups (k : nat) (t : text) : list byte := flat_map (fun g => be_enc 4 (digits_val g)) (nines k t).
(* integral part: the short group comes first; fractional part: it comes last *)
Definition int_bytes (ds : text) : list byte :=
  let k := (length ds mod 9)%nat in
  be_enc (bytes_for k) (digits_val (firstn k ds)) ++ full_groups (length ds / 9) (skipn k ds).
Definition frac_bytes (fs : text) : list byte :=
  let k := (length fs / 9)%nat in
  full_groups k fs ++ be_enc (bytes_for (length fs mod 9)) (digits_val (skipn (9 * k) fs)).
(* negative numbers: all bits inverted; then the first bit is inverted, so that byte order is number order *)
Definition invert (b : byte) : byte := n2b (255 - b2n b).
Definition invert_sign (b : byte) : byte := n2b ((b2n b + 128) mod 256).
Definition decimal_bytes (neg : bool) (ds fs : text) : list byte :=
  let plain := int_bytes ds ++ frac_bytes fs in
  match (if neg then map invert plain else plain) with [] => [] | b :: r => invert_sign b :: r end.
(* the number as text: no leading zeros in front of the point, all fractional digits *)
Fixpoint strip_zeros (t : text) : text := match t with c :: r => if c =? 48 then strip_zeros r else t | [] => [] end.
Definition decimal_text (neg : bool) (ds fs : text) : text :=
  (if neg then [45] else []) ++ (match strip_zeros ds with [] => [48] | t => t end) ++
  (match fs with [] => [] | _ => 46 :: fs end).

(* ---- BIT(n): [n] bits, most significant first ---- *)
Definition bit_metadata (n : nat) : N := 256 * N.of_nat (n / 8) + N.of_nat (n mod 8).
Definition bit_bytes (bits : list bool) : list byte := be_enc (bitmap_len (length bits)) (bits_val (rev bits)).

(* ---- temporal types ---- *)
(* fractional seconds, [fsp] digits: (fsp+1)/2 bytes, in units of 1/100, 1/10000 or 1/1000000 second *)
Definition frac_len (fsp : N) : nat := N.to_nat ((fsp + 1) / 2).
Definition usec_bytes (fsp usec : N) : list byte := be_enc (frac_len fsp) (usec / 100 ^ (3 - N.of_nat (frac_len fsp))).
Definition usec_ok (fsp usec : N) : Prop := fsp <= 6 /\ usec < 1000000 /\ usec mod 10 ^ (6 - fsp) = 0.

(* cell fsp/type metadata value bytes; column type codes as in the table map *)
Inductive cell : N -> N -> value -> list byte -> Prop :=
| cell_tiny m n : n < 256 -> cell 1 m (VTinyInt n) (le_enc 1 n)
| cell_short m n : n < 65536 -> cell 2 m (VSmallInt n) (le_enc 2 n)
| cell_int24 m n : n < 16777216 -> cell 9 m (VMediumInt n) (le_enc 3 n)
| cell_long m n : n < 4294967296 -> cell 3 m (VInt n) (le_enc 4 n)
| cell_longlong m n : n < 18446744073709551616 -> cell 8 m (VBigInt n) (le_enc 8 n)
| cell_float m n : n < 4294967296 -> cell 4 m (VFloat n) (le_enc 4 n)
| cell_double m n : n < 18446744073709551616 -> cell 5 m (VDouble n) (le_enc 8 n)
| cell_decimal neg ds fs : all_digits ds -> all_digits fs -> (1 <= length ds + length fs <= 255)%nat ->
    cell 246 (N.of_nat (length ds + length fs) + 256 * N.of_nat (length fs)) (VDecimal (decimal_text neg ds fs)) (decimal_bytes neg ds fs)
  (* CHAR, VARCHAR: length in one byte if the column is shorter than 256 bytes, else two *)
| cell_string ty m t : In ty [254; 15; 253] -> valid_text t ->
    N.of_nat (length (utf8_encode t)) < 256 ^ (if m <? 256 then 1 else 2) ->
    cell ty m (VString t) (le_enc (if m <? 256 then 1 else 2) (N.of_nat (length (utf8_encode t))) ++ utf8_encode t)
| cell_bit bits : (length bits < 2048)%nat -> cell 16 (bit_metadata (length bits)) (VBit bits) (bit_bytes bits)
| cell_enum m n : 1 <= m <= 4 -> n < 256 ^ m -> cell 247 m (VEnum n) (le_enc (N.to_nat m) n)
| cell_set m n : 1 <= m <= 8 -> n < 256 ^ m -> cell 248 m (VSet n) (le_enc (N.to_nat m) n)
  (* TINYBLOB..LONGBLOB, GEOMETRY, JSON: [m] bytes of length *)
| cell_blob ty m bs : In ty [249; 250; 251; 252; 255; 245] -> 1 <= m <= 4 -> N.of_nat (length bs) < 256 ^ m ->
    cell ty m (VBlob bs) (le_enc (N.to_nat m) (N.of_nat (length bs)) ++ bs)
| cell_year m y : 1901 <= y <= 2155 -> cell 13 m (VYear y) [n2b (y - 1900)]
| cell_date m y mo d : y < 32768 -> mo < 16 -> d < 32 ->
    cell 10 m (VDate (Date y mo d)) (le_enc 3 (512 * y + 32 * mo + d))
| cell_time m h mi s : h <= 838 -> mi < 60 -> s < 60 ->
    cell 11 m (VTime (Time h mi s 0)) (le_enc 3 (10000 * h + 100 * mi + s))
| cell_datetime m y mo d h mi s : y <= 9999 -> mo <= 12 -> d <= 31 -> h < 24 -> mi < 60 -> s < 60 ->
    cell 12 m (VDateTime (DateTime y mo d h mi s 0))
      (le_enc 8 (10000000000 * y + 100000000 * mo + 1000000 * d + 10000 * h + 100 * mi + s))
| cell_timestamp m s : s < 4294967296 -> cell 7 m (VTimestamp (1000 * s)) (le_enc 4 s)
  (* since 5.6: big-endian bit fields followed by the fraction *)
| cell_time2 fsp h mi s us : h <= 838 -> mi < 60 -> s < 60 -> usec_ok fsp us ->
    cell 19 fsp (VTime (Time h mi s (us / 1000))) (be_enc 3 (8388608 + 4096 * h + 64 * mi + s) ++ usec_bytes fsp us)
| cell_datetime2 fsp y mo d h mi s us : y <= 9999 -> mo <= 12 -> d <= 31 -> h < 24 -> mi < 60 -> s < 60 -> usec_ok fsp us ->
    cell 18 fsp (VDateTime (DateTime y mo d h mi s (us / 1000)))
      (be_enc 5 (549755813888 + 4194304 * (13 * y + mo) + 131072 * d + 4096 * h + 64 * mi + s) ++ usec_bytes fsp us)
| cell_timestamp2 fsp s us : s < 4294967296 -> usec_ok fsp us ->
    cell 17 fsp (VTimestamp (1000 * s + us / 1000)) (be_enc 4 s ++ usec_bytes fsp us).

(* negative TIME values: two's complement; new form: the whole bit field, fraction included, below 2^23 *)
Definition negative_time_bytes (h mi s : N) : list byte := le_enc 3 (16777216 - (10000 * h + 100 * mi + s)).
Definition negative_time2_bytes (fsp h mi s us : N) : list byte :=
  let k := frac_len fsp in
  be_enc (3 + k) (8388608 * 256 ^ N.of_nat k - ((4096 * h + 64 * mi + s) * 256 ^ N.of_nat k + us / 100 ^ (3 - N.of_nat k))).

(* ---- CHAR, ENUM and SET share the type code STRING (254); the real type hides in the metadata ---- *)
(* CHAR of [len] bytes: the upper two bits of the length are xored into the type byte *)
Definition char_metadata (len : N) : N := 256 * N.lxor 254 (16 * (len / 256)) + len mod 256.
Definition enum_metadata (pack : N) : N := 256 * 247 + pack.
Definition set_metadata (pack : N) : N := 256 * 248 + pack.
