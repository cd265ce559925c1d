(* Exactly which event payloads make the decoder panic, byte by byte. *)
From Verif Require Import Base.Tac Base.Bytes Base.Text Base.Res Model.TableMap Model.Rows Model.Events Spec.CodecSpec Spec.EventSpec
  Spec.CellSpec Spec.TableSpec Spec.SafeSpec.
Local Open Scope N_scope.

(* longest vector: 2^63 - 1 *)
Definition too_long (n : N) : Prop := 9223372036854775807 < n.
(* valid UTF-8 *)
Definition is_text (bs : list byte) : Prop := exists t, valid_text t /\ bs = utf8_encode t.
(* the bytes start with a length above 2^63 - 1 *)
Definition starts_too_long (bs : list byte) : Prop := exists n count post, bs = count ++ post /\ lenenc n count /\ too_long n.
(* one behind the other, none of them empty *)
Definition chain (P : list byte -> Prop) (bs : list byte) : Prop :=
  exists pieces, bs = concat pieces /\ Forall (fun s => s <> [] /\ P s) pieces.
(* the pieces of a chain, then something wrong *)
Definition breaks (P bad : list byte -> Prop) (bs : list byte) : Prop :=
  exists good tail, bs = good ++ tail /\ chain P good /\ tail <> [] /\ bad tail.
(* n pieces, one behind the other *)
Definition times (n : N) (P : list byte -> Prop) (bs : list byte) : Prop :=
  exists pieces, bs = concat pieces /\ N.of_nat (length pieces) = n /\ Forall P pieces.
(* fewer than n pieces, then something wrong *)
Definition breaks_in (n : N) (P bad : list byte -> Prop) (bs : list byte) : Prop :=
  exists k good tail, bs = good ++ tail /\ k < n /\ times k P good /\ bad tail.

(* ---- format descriptions: the length byte is reached, and the event length minus 19 underflows ---- *)
Definition format_stops (length_field : N) (payload : list byte) : Prop :=
  length_field mod 256 < 19 /\ (72 <= length payload)%nat /\ is_text (before_nul (firstn 50 (skipn 2 payload))).

(* ---- previous GTIDs: an interval that ends at 0 ---- *)
Definition ended (bs : list byte) : Prop := exists start e, bs = start ++ le_enc 8 e /\ length start = 8%nat /\ 0 < e < 18446744073709551616.
Definition server_entry (bs : list byte) : Prop :=
  exists server n ivs, bs = server ++ le_enc 8 n ++ ivs /\ length server = 16%nat /\ u64 n /\ times n ended ivs.
Definition ends_at_zero (bs : list byte) : Prop := exists start rest, bs = start ++ le_enc 8 0 ++ rest /\ length start = 8%nat.
Definition entry_stops (bs : list byte) : Prop :=
  exists server n ivs, bs = server ++ le_enc 8 n ++ ivs /\ length server = 16%nat /\ u64 n /\ breaks_in n ended ends_at_zero ivs.
Definition previous_stops (payload : list byte) : Prop :=
  exists n entries, payload = le_enc 8 n ++ entries /\ u64 n /\ breaks_in n server_entry entry_stops entries.

(* ---- table maps ---- *)
Definition an_int (bs : list byte) : Prop := exists n, lenenc n bs.
Definition two_ints (bs : list byte) : Prop := exists a b, bs = a ++ b /\ an_int a /\ an_int b.
Definition a_string (bs : list byte) : Prop :=
  exists count s, bs = count ++ s /\ lenenc (N.of_nat (length s)) count /\ N.of_nat (length s) <= 9223372036854775807 /\ is_text s.
Definition some_strings (bs : list byte) : Prop := exists n count ss, bs = count ++ ss /\ lenenc n count /\ times n a_string ss.
Definition strings_stop (bs : list byte) : Prop := exists n count ss, bs = count ++ ss /\ lenenc n count /\ breaks_in n a_string starts_too_long ss.
Definition field_content (types : list N) (code : N) (c : list byte) : Prop :=
  if code =? 1 then (N.of_nat (length (filter (fun t => has t numeric_types) types)) + 7) / 8 <= N.of_nat (length c)
  else if code =? 12 then (N.of_nat (length types) + 7) / 8 <= N.of_nat (length c)
  else if has code [2; 10] then exists d r, c = d ++ r /\ an_int d /\ chain two_ints r
  else if has code [3; 7; 8; 11] then chain an_int c
  else if code =? 4 then chain a_string c
  else if has code [5; 6] then chain some_strings c
  else chain two_ints c.
Definition content_stops (code : N) (c : list byte) : Prop :=
  if code =? 4 then breaks a_string starts_too_long c
  else if has code [5; 6] then breaks some_strings strings_stop c
  else False.
(* a field: its code, the length of its content, its content *)
Definition a_field (types : list N) (bs : list byte) : Prop :=
  exists code count c, bs = code :: count ++ c /\ 1 <= b2n code <= 12 /\ lenenc (N.of_nat (length c)) count /\
    N.of_nat (length c) <= 9223372036854775807 /\ field_content types (b2n code) c.
Definition field_stops (bs : list byte) : Prop :=
  exists code tail, bs = code :: tail /\ 1 <= b2n code <= 12 /\
    (starts_too_long tail \/
     exists count c post, tail = count ++ c ++ post /\ lenenc (N.of_nat (length c)) count /\
       N.of_nat (length c) <= 9223372036854775807 /\ content_stops (b2n code) c).
(* up to the column count *)
Definition table_start (n : N) (bs : list byte) : Prop :=
  exists id flags dl db x tl name y count,
    bs = id ++ flags ++ [dl] ++ db ++ [x] ++ [tl] ++ name ++ [y] ++ count /\
    length id = 6%nat /\ length flags = 2%nat /\ N.of_nat (length db) = b2n dl /\ is_text db /\
    N.of_nat (length name) = b2n tl /\ is_text name /\ lenenc n count.
Definition meta_size (ty : N) : nat :=
  if has ty one_byte_meta then 1%nat else if has ty two_byte_meta || has ty real_type_meta then 2%nat else 0%nat.
(* up to the bitmap of the nullable columns *)
Definition table_columns (types : list N) (bs : list byte) : Prop :=
  exists n start cts ml metas nullable,
    bs = start ++ cts ++ ml ++ metas ++ nullable /\ table_start n start /\ n <= 9223372036854775807 /\
    N.of_nat (length cts) = n /\ types = map b2n cts /\ an_int ml /\ Forall (fun t => In t known_types) types /\
    length metas = list_sum (map meta_size types) /\ N.of_nat (length nullable) = (n + 7) / 8.
Definition table_map_stops (payload : list byte) : Prop :=
  (exists n start post, payload = start ++ post /\ table_start n start /\ too_long n) \/
  (exists types cols fields, payload = cols ++ fields /\ table_columns types cols /\ breaks (a_field types) field_stops fields).

(* ---- cells ---- *)
Definition blob_types : list N := [245; 249; 250; 251; 252; 255].
(* bytes of a fraction *)
Definition frac_size (m : N) : N := (m + 1) mod 65536 / 2.
(* digits in front of the point; the subtraction wraps in release builds *)
Definition int_digits (m : N) : N := (256 + m mod 256 - m / 256) mod 256.
Definition group_size (d : N) : N := d / 9 * 4 + N.of_nat (bytes_for (N.to_nat (d mod 9))).
(* exactly these bytes are read as a cell *)
Definition cell_reads (bl : build) (ty m : N) (bs : list byte) : Prop :=
  let size k := N.of_nat (length bs) = k in
  if has ty [1; 13] then size 1
  else if ty =? 2 then size 2
  else if has ty [9; 10] then size 3
  else if has ty [3; 4; 7] then size 4
  else if has ty [5; 8; 12] then size 8
  else if ty =? 11 then size 3 /\ le_dec bs < 8388608                          (* not negative *)
  else if ty =? 17 then size (4 + frac_size m) /\ ~ cell_risky bl ty m
  else if ty =? 18 then size (5 + frac_size m) /\ ~ cell_risky bl ty m
  else if ty =? 19 then size (3 + frac_size m) /\ ~ cell_risky bl ty m /\ 8388608 <= be_dec (firstn 3 bs)
  else if has ty [15; 253; 254] then
    exists count s, bs = count ++ s /\ length count = (if (m <? 256)%N then 1 else 2)%nat /\ le_dec count = N.of_nat (length s) /\ is_text s
  else if ty =? 16 then size ((m / 256 * 8 + m mod 256 + 7) / 8)
  else if ty =? 246 then size (group_size (int_digits m) + group_size (m / 256)) /\ ~ cell_risky bl ty m
  else if has ty [247; 248] then size m /\ 1 <= m <= 8
  else if has ty blob_types then
    exists count s, bs = count ++ s /\ N.of_nat (length count) = m /\ 1 <= m <= 8 /\ le_dec count = N.of_nat (length s) /\
      N.of_nat (length s) <= 9223372036854775807
  else False.
(* the cell starting here makes the decoder panic *)
Definition cell_stops (bl : build) (ty m : N) (bs : list byte) : Prop :=
  if has ty blob_types then
    m = 0 \/ 9 <= m \/ (m = 8 /\ exists count post, bs = count ++ post /\ length count = 8%nat /\ too_long (le_dec count))
  else if has ty [17; 18; 19] then
    let base := if ty =? 17 then 4 else if ty =? 18 then 5 else 3 in
    cell_risky bl ty m /\ (base + (if m <=? 16 then frac_size m else 0) <= N.of_nat (length bs))
  else cell_risky bl ty m.

(* ---- rows: [present] and [nulls] have one bit per column, one bit per present column ---- *)
(* the bytes of the columns *)
Inductive columns_read (bl : build) : list N -> list N -> list bool -> list bool -> list byte -> Prop :=
| cr_end metas present nulls : columns_read bl [] metas present nulls []
| cr_absent ty types metas present nulls bs :
    columns_read bl types (tl metas) present nulls bs -> columns_read bl (ty :: types) metas (false :: present) nulls bs
| cr_null ty types metas present nulls bs :
    columns_read bl types (tl metas) present nulls bs -> columns_read bl (ty :: types) metas (true :: present) (true :: nulls) bs
| cr_cell ty types m metas present nulls cell bs : In ty known_types ->
    cell_reads bl (fst (real_column ty m)) (snd (real_column ty m)) cell -> columns_read bl types metas present nulls bs ->
    columns_read bl (ty :: types) (m :: metas) (true :: present) (false :: nulls) (cell ++ bs).
(* a column without presence bit, or without metadata, or with a cell that makes the decoder panic, is reached *)
Inductive columns_stop (bl : build) : list N -> list N -> list bool -> list bool -> list byte -> Prop :=
| cs_unannounced ty types metas nulls bs : columns_stop bl (ty :: types) metas [] nulls bs
| cs_no_meta ty types present nulls bs : columns_stop bl (ty :: types) [] (true :: present) (false :: nulls) bs
| cs_cell ty types m metas present nulls bs : In ty known_types -> cell_stops bl (fst (real_column ty m)) (snd (real_column ty m)) bs ->
    columns_stop bl (ty :: types) (m :: metas) (true :: present) (false :: nulls) bs
| cs_absent ty types metas present nulls bs :
    columns_stop bl types (tl metas) present nulls bs -> columns_stop bl (ty :: types) metas (false :: present) nulls bs
| cs_null ty types metas present nulls bs :
    columns_stop bl types (tl metas) present nulls bs -> columns_stop bl (ty :: types) metas (true :: present) (true :: nulls) bs
| cs_next ty types m metas present nulls cell bs : In ty known_types ->
    cell_reads bl (fst (real_column ty m)) (snd (real_column ty m)) cell -> columns_stop bl types metas present nulls bs ->
    columns_stop bl (ty :: types) (m :: metas) (true :: present) (false :: nulls) (cell ++ bs).
(* [n] bits from bytes, least significant bit of each byte first *)
Definition bits_of (n : N) (bs : list byte) : list bool :=
  map (fun i => N.testbit (le_dec bs) (N.of_nat i)) (seq 0 (N.to_nat n)).
Definition ones_in (bits : list bool) : N := N.of_nat (count_occ Bool.bool_dec bits true).
Definition bitmap_of (n : N) (bs : list byte) : Prop := N.of_nat (length bs) = (n + 7) / 8.
Definition image_reads (bl : build) (t : table_map) (present : list bool) (bs : list byte) : Prop :=
  exists nb cells, bs = nb ++ cells /\ bitmap_of (ones_in present) nb /\
    columns_read bl (tb_types t) (tb_meta t) present (bits_of (ones_in present) nb) cells.
Definition image_stops (bl : build) (t : table_map) (present : list bool) (bs : list byte) : Prop :=
  exists nb cells, bs = nb ++ cells /\ bitmap_of (ones_in present) nb /\
    columns_stop bl (tb_types t) (tb_meta t) present (bits_of (ones_in present) nb) cells.
Fixpoint images_read (bl : build) (t : table_map) (ps : list (list bool)) (bs : list byte) : Prop :=
  match ps with
  | [] => bs = []
  | p :: ps' => exists a b, bs = a ++ b /\ image_reads bl t p a /\ images_read bl t ps' b
  end.
Fixpoint images_stop (bl : build) (t : table_map) (ps : list (list bool)) (bs : list byte) : Prop :=
  match ps with
  | [] => False
  | p :: ps' => image_stops bl t p bs \/ exists a b, bs = a ++ b /\ image_reads bl t p a /\ images_stop bl t ps' b
  end.
(* more columns are announced than any vector can hold, or the bitmaps (two for updates) are there and among the rows
   of a known table one makes the decoder panic *)
Definition rows_stop (bl : build) (ts : tables) (ty : N) (payload : list byte) : Prop :=
  exists v id n rest, rows_version ty = Some v /\ announces v payload id n rest /\
    (too_long n \/
     exists maps tail t, rest = concat maps ++ tail /\ n <= 9223372036854775807 /\
       length maps = (if has ty [24; 31] then 2%nat else 1%nat) /\ Forall (bitmap_of n) maps /\ tables_get id ts = Some t /\
       breaks (images_read bl t (map (bits_of n) maps)) (images_stop bl t (map (bits_of n) maps)) tail).

(* ---- any event ---- *)
Definition payload_stops (bl : build) (ts : tables) (h : header) (payload : list byte) : Prop :=
  (bl = Debug /\ h_type h = 15 /\ format_stops (h_length h) payload) \/
  (bl = Debug /\ h_type h = 35 /\ previous_stops payload) \/
  (h_type h = 19 /\ table_map_stops payload) \/
  rows_stop bl ts (h_type h) payload.
(* checksummed events lose their last four bytes first *)
Definition event_stops (bl : build) (st : pstate) (h : header) (slice : list byte) : Prop :=
  match ps_checksum st with
  | CkNone => payload_stops bl (ps_tables st) h slice
  | CkCrc32 => (length slice < 4)%nat \/
      exists payload crc, slice = payload ++ crc /\ length crc = 4%nat /\ payload_stops bl (ps_tables st) h payload
  end.
