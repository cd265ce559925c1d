(* C38 - C42: cells of row events *)
From Coq Require Import Strings.String.
From Verif Require Import Base.Tac Base.Bytes Base.Text Base.Res Base.Str Base.Parse Base.Loop Model.Codec Model.Values Model.Decimal
  Model.Cells Spec.CodecSpec Spec.CellSpec Proofs.CodecProofs Proofs.DecimalProofs Proofs.CellProofs.
Local Open Scope N_scope.

(* [cell ty m v bs] (Spec/CellSpec.v): the server writes the value v of a column of type ty with metadata m as bs. *)

(* ---- C38 ---- *)
(* full statement: every cell of these types decodes to the value whose bytes the server wrote.  Missing: CHAR,
   VARCHAR, BINARY and VARBINARY values that are not UTF-8; these fail, see below. *)
Theorem C38_plain_cells_partial : forall bl ty m v bs,
  In ty [1; 2; 9; 3; 8; 4; 5; 247; 248; 249; 250; 251; 252; 255; 245; 254; 15; 253] ->
  cell ty m v bs -> runs (parse_cell bl ty m) bs v.
Proof. intros bl ty m v bs _. apply runs_cell. Qed.
Print Assumptions C38_plain_cells_partial.
(* the value determines the bytes: nothing is conflated *)
Theorem C38_blob_cells_any_bytes : forall bl ty m bs, In ty [249; 250; 251; 252; 255; 245] -> 1 <= m <= 4 ->
  N.of_nat (length bs) < 256 ^ m ->
  runs (parse_cell bl ty m) (le_enc (N.to_nat m) (N.of_nat (length bs)) ++ bs) (VBlob bs).
Proof. intros. apply runs_cell. now constructor. Qed.
Print Assumptions C38_blob_cells_any_bytes.
(* a string cell that is not UTF-8 is an error: never a wrong value *)
Theorem C38_bad_utf8_is_an_error : forall bl ty m bs pre post, In ty [254; 15; 253] ->
  N.of_nat (length bs) < 256 ^ (if m <? 256 then 1 else 2) -> (forall t, valid_text t -> utf8_encode t <> bs) ->
  parse_cell bl ty m (pre ++ (le_enc (if m <? 256 then 1 else 2) (N.of_nat (length bs)) ++ bs) ++ post) (length pre) = Err EFromUtf8.
Proof.
  intros bl ty m bs pre post Hty Hl Hn.
  assert (D : from_utf8 bs = Err EFromUtf8).
  { unfold from_utf8. destruct (utf8_decode bs) as [t|] eqn:E; [|reflexivity]. exfalso.
    apply utf8_decode_sound in E. destruct E as [E1 E2]. exact (Hn t E1 E2). }
  assert (P : parse_string m (pre ++ (le_enc (if m <? 256 then 1 else 2) (N.of_nat (length bs)) ++ bs) ++ post) (length pre) = Err EFromUtf8).
  { unfold parse_string, pbind. rewrite <- app_assoc.
    assert (R : runs (if m <? 256 then read_u8 else read_u16) (le_enc (if m <? 256 then 1 else 2) (N.of_nat (length bs))) (N.of_nat (length bs)))
      by (destruct (m <? 256); [apply runs_u8|apply runs_u16]; exact Hl).
    rewrite R. unfold read_string, pbind.
    pose proof (runs_read_bytes bs (N.of_nat (length bs)) eq_refl) as R2.
    assert (Hi : N.of_nat (length bs) <= isize_max).
    { destruct (m <? 256); [change (256 ^ 1) with 256 in Hl|change (256 ^ 2) with 65536 in Hl]; unfold isize_max; lia. }
    specialize (R2 Hi (pre ++ le_enc (if m <? 256 then 1 else 2) (N.of_nat (length bs))) post).
    rewrite <- app_assoc, app_length in R2. rewrite R2. now rewrite D. }
  revert P. generalize (pre ++ (le_enc (if m <? 256 then 1 else 2) (N.of_nat (length bs)) ++ bs) ++ post). intros buf P. cbn [In] in Hty.
  assert (Q : (t <- parse_string m ;; ret (VString t)) buf (length pre) = Err EFromUtf8) by (unfold pbind; now rewrite P).
  destruct Hty as [<-|[<-|[<-|[]]]]; exact Q.
Qed.
Print Assumptions C38_bad_utf8_is_an_error.
(* VARBINARY(1) holding FF *)
Theorem C38_binary_string_refuted : exists bs,
  parse_cell Release 15 1 (le_enc 1 (N.of_nat (length bs)) ++ bs) 0%nat = Err EFromUtf8.
Proof. exists [n2b 255]. vm_compute. reflexivity. Qed.
Print Assumptions C38_binary_string_refuted.
Example C38_example :
  cell 2 0 (VSmallInt 65535) [n2b 255; n2b 255] /\
  cell 15 1024 (VString (tx "h" ++ [228; 8364])) ([n2b 6; n2b 0] ++ utf8_encode (tx "h" ++ [228; 8364])) /\
  cell 248 3 (VSet 131073) [n2b 1; n2b 0; n2b 2] /\ cell 245 4 (VBlob [n2b 9]) [n2b 1; n2b 0; n2b 0; n2b 0; n2b 9] /\
  parse_cell Debug 15 1024 (n2b 77 :: [n2b 6; n2b 0] ++ utf8_encode (tx "h" ++ [228; 8364])) 1%nat = Ok (VString (tx "h" ++ [228; 8364]), 9%nat).
Proof.
  split; [apply (cell_short 0 65535); lia|]. split.
  { apply (cell_string 15 1024 (tx "h" ++ [228; 8364])); [right; left; reflexivity| |vm_compute; reflexivity]. repeat constructor; vm_compute; reflexivity. }
  split; [apply (cell_set 3 131073); [lia|vm_compute; reflexivity]|].
  split; [apply (cell_blob 245 4 [n2b 9]); [cbn; tauto|lia|vm_compute; reflexivity]|]. vm_compute. reflexivity.
Qed.

(* ---- C39 ---- *)
(* [ds] the digits in front of the point (leading zeros included, as many as the column has), [fs] those behind it *)
Theorem C39_decimals : forall bl neg ds fs, all_digits ds -> all_digits fs -> (1 <= length ds + length fs <= 255)%nat ->
  runs (parse_cell bl 246 (N.of_nat (length ds + length fs) + 256 * N.of_nat (length fs)))
       (decimal_bytes neg ds fs) (VDecimal (decimal_text neg ds fs)).
Proof. intros. apply runs_cell. now constructor. Qed.
Print Assumptions C39_decimals.
(* DECIMAL(14,4), the example of MySQL's decimal.c: -1234567890.1234: 7E F2 04 C7 2D FB 2D *)
Example C39_example :
  decimal_bytes true (tx "1234567890") (tx "1234") = map n2b [0x7E; 0xF2; 0x04; 0xC7; 0x2D; 0xFB; 0x2D] /\
  decimal_text true (tx "0000000120") (tx "0030") = tx "-120.0030" /\ decimal_text false (tx "000") [] = tx "0" /\
  all_digits (tx "1234567890") /\ all_digits (tx "1234") /\
  parse_cell Release 246 (14 + 256 * 4) (decimal_bytes true (tx "1234567890") (tx "1234")) 0%nat = Ok (VDecimal (tx "-1234567890.1234"), 7%nat).
Proof. split; [reflexivity|]. split; [reflexivity|]. split; [reflexivity|]. split; [reflexivity|]. split; [reflexivity|]. vm_compute. reflexivity. Qed.

(* ---- C40 ---- *)
(* full statement: every YEAR, DATE, TIME, DATETIME, TIMESTAMP value decodes to its fields.  Missing: YEAR 0000. *)
Theorem C40_temporal_partial : forall bl ty m v bs, In ty [13; 10; 11; 12; 7; 19; 18; 17] ->
  cell ty m v bs -> runs (parse_cell bl ty m) bs v.
Proof. intros bl ty m v bs _. apply runs_cell. Qed.
Print Assumptions C40_temporal_partial.
Theorem C40_negative_time_rejected : forall bl m h mi s pre post, h <= 838 -> mi < 60 -> s < 60 -> 0 < h + mi + s ->
  parse_cell bl 11 m (pre ++ negative_time_bytes h mi s ++ post) (length pre) = Err (EString negative_time).
Proof.
  intros bl m h mi s pre post Hh Hm Hs Hp. unfold negative_time_bytes.
  change (parse_cell bl 11 m) with (t <- parse_time ;; ret (VTime t)). unfold pbind at 1. unfold parse_time, pbind at 1.
  rewrite (runs_u24 (16777216 - (10000 * h + 100 * mi + s)) ltac:(lia)).
  assert (T : (to_signed 24 (16777216 - (10000 * h + 100 * mi + s)) < 0)%Z) by (apply to_signed_neg; lia).
  destruct (Z.ltb_spec (to_signed 24 (16777216 - (10000 * h + 100 * mi + s))) 0); [reflexivity|lia].
Qed.
Print Assumptions C40_negative_time_rejected.
Theorem C40_negative_time2_rejected : forall bl fsp h mi s us pre post,
  h <= 838 -> mi < 60 -> s < 60 -> usec_ok fsp us -> 0 < h + mi + s + us ->
  parse_cell bl 19 fsp (pre ++ negative_time2_bytes fsp h mi s us ++ post) (length pre) = Err (EString negative_time).
Proof.
  intros bl fsp h mi s us pre post Hh Hm Hs Hu Hp. unfold negative_time2_bytes. cbv zeta.
  set (k := frac_len fsp). set (U := us / 100 ^ (3 - N.of_nat k)).
  set (P := 256 ^ N.of_nat k). set (X := 8388608 * P - ((4096 * h + 64 * mi + s) * P + U)).
  assert (Hk : (k <= 3)%nat) by (destruct Hu as (H1 & _); unfold k, frac_len; lia).
  assert (HU : U < P /\ 0 < 4096 * h + 64 * mi + s + U).
  { destruct Hu as (H1 & H2 & H3). unfold U, P.
    assert (C : fsp = 0 \/ fsp = 1 \/ fsp = 2 \/ fsp = 3 \/ fsp = 4 \/ fsp = 5 \/ fsp = 6) by lia. clear X U P Hk.
    destruct C as [->|[->|[->|[->|[->|[->| ->]]]]]]; vm_compute in k; unfold k in *; clear k;
      [change (10 ^ (6 - 0)) with 1000000 in H3; change (100 ^ (3 - N.of_nat 0)) with 1000000; change (256 ^ N.of_nat 0) with 1
      | change (10 ^ (6 - 1)) with 100000 in H3; change (100 ^ (3 - N.of_nat 1)) with 10000; change (256 ^ N.of_nat 1) with 256
      | change (10 ^ (6 - 2)) with 10000 in H3; change (100 ^ (3 - N.of_nat 1)) with 10000; change (256 ^ N.of_nat 1) with 256
      | change (100 ^ (3 - N.of_nat 2)) with 100; change (10 ^ (6 - 3)) with 1000 in H3; change (256 ^ N.of_nat 2) with 65536
      | change (100 ^ (3 - N.of_nat 2)) with 100; change (10 ^ (6 - 4)) with 100 in H3; change (256 ^ N.of_nat 2) with 65536
      | change (100 ^ (3 - N.of_nat 3)) with 1; change (256 ^ N.of_nat 3) with 16777216
      | change (100 ^ (3 - N.of_nat 3)) with 1; change (256 ^ N.of_nat 3) with 16777216]; lia. }
  destruct HU as [HU1 HU2].
  assert (HP : P = 1 \/ P = 256 \/ P = 65536 \/ P = 16777216).
  { unfold P. assert (C : k = 0%nat \/ k = 1%nat \/ k = 2%nat \/ k = 3%nat) by lia.
    destruct C as [->|[->|[->| ->]]]; [left|right; left|right; right; left|right; right; right]; reflexivity. }
  assert (HX : X < 8388608 * P /\ X / P < 8388608).
  { unfold X. clearbody U P. clear - HU1 HU2 HP Hh Hm Hs. destruct HP as [->|[->|[->| ->]]]; lia. }
  assert (E : be_enc (3 + k) X = be_enc 3 (X / P) ++ be_enc k (X mod P)).
  { rewrite be_enc_app. unfold P. f_equal. apply be_enc_mod. }
  rewrite E. change (parse_cell bl 19 fsp) with (t <- parse_time2 bl fsp ;; ret (VTime t)).
  unfold pbind at 1. unfold parse_time2, pbind at 1. rewrite <- app_assoc.
  rewrite (runs_read_be 3 (X / P) ltac:(change (256 ^ N.of_nat 3) with 16777216; lia) ltac:(unfold isize_max; lia)).
  destruct (frac_reads bl fsp (X mod P) (pre ++ be_enc 3 (X / P)) post) as [f Hf].
  - destruct Hu as (H1 & _). exact H1.
  - apply N.mod_lt. unfold P. lia.
  - rewrite <- app_assoc, app_length in Hf. unfold pbind at 1. fold k in Hf. rewrite Hf. cbv beta zeta.
    change (2 ^ 23) with 8388608. replace (X / P / 8388608 mod 2) with 0 by lia. reflexivity.
Qed.
Print Assumptions C40_negative_time2_rejected.
(* YEAR 0000 is stored as 0 and comes out as 1900 *)
Theorem C40_year_zero_refuted : exists b, b = n2b 0 /\ parse_cell Release 13 0 [b] 0%nat = Ok (VYear 1900, 1%nat).
Proof. exists (n2b 0). split; [reflexivity|]. vm_compute. reflexivity. Qed.
Print Assumptions C40_year_zero_refuted.
(* every stored year: 1900 is added, so exactly the year 0000 comes out wrong *)
Definition year_byte (y : N) : N := if y =? 0 then 0 else y - 1900.
Theorem C40_year_exact : forall bl m y pre post, y = 0 \/ 1901 <= y <= 2155 ->
  exists y', parse_cell bl 13 m (pre ++ [n2b (year_byte y)] ++ post) (length pre) = Ok (VYear y', (length pre + 1)%nat) /\ (y' = y <-> y <> 0).
Proof.
  intros bl m y pre post Hy. exists (1900 + year_byte y). assert (Hb : year_byte y < 256) by (unfold year_byte; destruct (N.eqb_spec y 0); lia). split.
  - change (parse_cell bl 13 m) with (v <- parse_year ;; ret (VYear v)). unfold parse_year, pbind. pose proof (runs_u8_byte (n2b (year_byte y)) pre post) as R.
    rewrite b2n_n2b in R by exact Hb. rewrite R. reflexivity.
  - unfold year_byte. destruct (N.eqb_spec y 0); lia.
Qed.
Print Assumptions C40_year_exact.
Example C40_example :
  cell 18 3 (VDateTime (DateTime 2021 12 31 23 59 58 987)) (be_enc 5 (549755813888 + 4194304 * (13 * 2021 + 12) + 131072 * 31 + 4096 * 23 + 64 * 59 + 58) ++ usec_bytes 3 987000) /\
  cell 19 6 (VTime (Time 838 59 59 123)) (be_enc 3 (8388608 + 4096 * 838 + 64 * 59 + 59) ++ usec_bytes 6 123456) /\
  usec_bytes 3 987000 = be_enc 2 9870 /\
  negative_time2_bytes 2 1 0 0 10000 = map n2b [0x7F; 0xEF; 0xFF; 0xFF] /\
  parse_cell Release 18 0 (map n2b [0x99; 0xAB; 0x7F; 0x7E; 0xFA]) 0%nat = Ok (VDateTime (DateTime 2021 12 31 23 59 58 0), 5%nat).
Proof.
  split; [apply (cell_datetime2 3 2021 12 31 23 59 58 987000); try lia; vm_compute; repeat split; congruence|].
  split; [apply (cell_time2 6 838 59 59 123456); try lia; vm_compute; repeat split; congruence|].
  split; [reflexivity|]. split; [reflexivity|]. vm_compute. reflexivity.
Qed.

(* ---- C41 ---- *)
Theorem C41_bits : forall bl bits, (length bits < 2048)%nat ->
  runs (parse_cell bl 16 (bit_metadata (length bits))) (bit_bytes bits) (VBit bits).
Proof. intros. apply runs_cell. now constructor. Qed.
Print Assumptions C41_bits.
Example C41_example : bit_metadata 10 = 258 /\ bit_bytes [true; false; false; false; false; false; false; false; true; true] = [n2b 2; n2b 3] /\
  parse_cell Debug 16 258 [n2b 2; n2b 3] 0%nat = Ok (VBit [true; false; false; false; false; false; false; false; true; true], 2%nat).
Proof. split; [reflexivity|]. split; [reflexivity|]. vm_compute. reflexivity. Qed.

(* ---- C42 ---- *)
Theorem C42_real_string_type : 
  (forall len, len < 1024 -> actual_string_type 254 (char_metadata len) = (254, len)) /\
  (forall p, p < 256 -> actual_string_type 254 (enum_metadata p) = (247, p)) /\
  (forall p, p < 256 -> actual_string_type 254 (set_metadata p) = (248, p)).
Proof.
  assert (F : forall (f : N -> bool) k, forallb f (map N.of_nat (seq 0 k)) = true -> forall n, n < N.of_nat k -> f n = true).
  { intros f k H n Hn. rewrite forallb_forall in H. apply H. apply in_map_iff. exists (N.to_nat n). split; [lia|]. apply in_seq. lia. }
  assert (P : forall a b c d, ((fst a =? b) && (snd a =? c)) = d -> d = true -> a = (b, c)).
  { intros [x y] b c d H ->. cbn [fst snd] in H. apply andb_true_iff in H. destruct H as [H1 H2]. f_equal; lia. }
  split; [|split]; intros n Hn; (eapply P; [reflexivity|]).
  - apply (F (fun n => (fst (actual_string_type 254 (char_metadata n)) =? 254) && (snd (actual_string_type 254 (char_metadata n)) =? n)) 1024%nat); [vm_compute; reflexivity|exact Hn].
  - apply (F (fun n => (fst (actual_string_type 254 (enum_metadata n)) =? 247) && (snd (actual_string_type 254 (enum_metadata n)) =? n)) 256%nat); [vm_compute; reflexivity|exact Hn].
  - apply (F (fun n => (fst (actual_string_type 254 (set_metadata n)) =? 248) && (snd (actual_string_type 254 (set_metadata n)) =? n)) 256%nat); [vm_compute; reflexivity|exact Hn].
Qed.
Print Assumptions C42_real_string_type.
(* older servers send CHAR without packing: lengths below 256 are kept *)
Theorem C42_unpacked : forall ty len, len < 256 -> actual_string_type ty len = (ty, len).
Proof. intros ty len H. unfold actual_string_type. destruct (N.ltb_spec len 256); [reflexivity|lia]. Qed.
Print Assumptions C42_unpacked.
Example C42_example : char_metadata 800 = 52768 /\ enum_metadata 1 = 63233 /\ set_metadata 1 = 63489 /\ char_metadata 255 = 65279.
Proof. repeat split; vm_compute; reflexivity. Qed.
