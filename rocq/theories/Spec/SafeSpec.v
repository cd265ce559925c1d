(* Which inputs can stop the decoder. *)
From Verif Require Import Base.Tac Base.Bytes Base.Text Base.Res Model.TableMap Model.Rows Model.Events Spec.CodecSpec Spec.CellSpec
  Spec.TableSpec.
Local Open Scope N_scope.

(* a nine-byte length-encoded integer above 2^63 - 1 occurs in the payload *)
Definition huge_length (bs : list byte) : Prop :=
  exists i, nth_error bs i = Some (n2b 0xFE) /\ 9223372036854775807 < le_dec (firstn 8 (skipn (S i) bs)).

(* column metadata a server can send *)
Definition column_sane (ty m : N) : Prop :=
  m < 65536 /\
  if has ty [245; 249; 250; 251; 252; 255] then 1 <= m <= 7
  else if has ty [247; 248] then 1 <= m <= 8
  else if has ty [17; 18; 19] then m <= 6
  else if ty =? 246 then m / 256 <= m mod 256 /\ 1 <= m mod 256
  else if ty =? 254 then m < 256 \/ (exists len, len < 1024 /\ m = char_metadata len) \/
                         (exists p, 1 <= p <= 8 /\ (m = enum_metadata p \/ m = set_metadata p))
  else True.
Definition table_sane (t : table_map) : Prop :=
  length (tb_meta t) = length (tb_types t) /\ Forall (fun p => column_sane (fst p) (snd p)) (combine (tb_types t) (tb_meta t)).
Definition tables_sane (ts : tables) : Prop := forall id t, tables_get id ts = Some t -> table_sane t.

Definition rows_version (ty : N) : option N :=
  if has ty [23; 24; 25] then Some 1 else if has ty [30; 31; 32] then Some 2 else None.
(* rows event payloads: the table id is in bytes 0-5, flags in 6-7, in version 2 the length of the extra data in 8-9;
   then the column count, then one presence bit per column *)
Definition extra_length (v : N) (payload : list byte) : nat :=
  if v =? 2 then N.to_nat (le_dec (firstn 2 (skipn 8 payload))) else 0%nat.
Definition announces (v : N) (payload : list byte) (id n : N) (rest : list byte) : Prop :=
  id = le_dec (firstn 6 payload) /\ exists count, lenenc n count /\ skipn (8 + extra_length v payload) payload = count ++ rest.
(* it announces fewer columns than its table has (or more than 2^63 - 1) *)
Definition wrong_columns (ts : tables) (ty : N) (payload : list byte) : Prop :=
  exists v id n rest, rows_version ty = Some v /\ announces v payload id n rest /\
    (9223372036854775807 < n \/ exists t, tables_get id ts = Some t /\ n < N.of_nat (length (tb_types t))).
(* no column is present *)
Definition no_columns (ty : N) (payload : list byte) : Prop :=
  exists v id n rest, rows_version ty = Some v /\ announces v payload id n rest /\
    forall i b, N.of_nat i < n -> nth_error rest (i / 8) = Some b -> N.testbit (b2n b) (N.of_nat (i mod 8)) = false.

(* ---- exactly which column metadata can make the code panic ---- *)
(* the type and metadata a cell is read with: STRING columns hide another type, or two more bits of length, in the
   high byte *)
Definition real_column (ty m : N) : N * N :=
  if (ty =? 254) && (256 <=? m) then
    let hi := m / 256 in
    let k := hi / 16 mod 4 in
    if k =? 3 then (if (hi =? 247) || (hi =? 248) then hi else 254, m mod 256)
    else (hi + 16 * (3 - k), m mod 256 + 256 * (3 - k))
  else (ty, m).
Definition cell_risky (bl : build) (ty m : N) : Prop :=
  if has ty [245; 249; 250; 251; 252; 255] then m = 0 \/ 8 <= m            (* a length of no or of eight bytes *)
  else if has ty [247; 248] then m = 0 \/ 9 <= m                           (* an integer of no or of nine bytes *)
  else if has ty [17; 18; 19] then (bl = Debug /\ 7 <= m) \/ (bl = Release /\ 17 <= m < 65535)
  else if ty =? 246 then m = 0 \/ (bl = Debug /\ m mod 256 < m / 256)       (* no digits; more decimals than digits *)
  else False.
Definition column_risky (bl : build) (ty m : N) : Prop := cell_risky bl (fst (real_column ty m)) (snd (real_column ty m)).
(* metadata is missing for a column, or risky *)
Definition table_risky (bl : build) (t : table_map) : Prop :=
  (length (tb_meta t) < length (tb_types t))%nat \/ Exists (fun p => column_risky bl (fst p) (snd p)) (combine (tb_types t) (tb_meta t)).
(* the rows event is for such a table *)
Definition risky_event (bl : build) (ts : tables) (ty : N) (payload : list byte) : Prop :=
  exists v id n rest t, rows_version ty = Some v /\ announces v payload id n rest /\ tables_get id ts = Some t /\ table_risky bl t.
(* metadata are u16 values *)
Definition tables_typed (ts : tables) : Prop := forall id t, tables_get id ts = Some t -> Forall (fun m => m < 65536) (tb_meta t).

(* ---- exactly which rows events are decoded for ever ---- *)
(* the first n bits, least significant bit of each byte first, are all zero *)
Definition clear_bits (n : N) (bs : list byte) : Prop :=
  forall i b, N.of_nat i < n -> nth_error bs (i / 8) = Some b -> N.testbit (b2n b) (N.of_nat (i mod 8)) = false.
(* the table is known, it has no more columns than announced, no column is present (in neither image of an update) and
   bytes follow *)
Definition hangs (ts : tables) (ty : N) (payload : list byte) : Prop :=
  exists v id n maps tail t, rows_version ty = Some v /\ announces v payload id n (concat maps ++ tail) /\
    n <= 9223372036854775807 /\ length maps = (if has ty [24; 31] then 2%nat else 1%nat) /\
    Forall (fun bs => N.of_nat (length bs) = (n + 7) / 8 /\ clear_bits n bs) maps /\
    tables_get id ts = Some t /\ N.of_nat (length (tb_types t)) <= n /\ tail <> [].
