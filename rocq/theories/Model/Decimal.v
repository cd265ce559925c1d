(* src/events/row_events/decimal.rs *)
From Verif Require Import Base.Tac Base.Bytes Base.Text Base.Res Base.Str Base.Parse.
Local Open Scope N_scope.

(* decimal.rs:8; only indexed with 0..8 *)
Definition compressed_bytes (d : N) : N := nth (N.to_nat d) [0; 1; 1; 2; 2; 3; 3; 4; 4; 4] 0.

(* format!("{val:0prec$}") : at least prec digits *)
Definition pad_text (prec : nat) (n : N) : text :=
  let t := dec_text n in repeat 48 (prec - length t) ++ t.

Definition byte_xor (m : N) (b : byte) : byte := n2b (N.lxor (b2n b) m).

(* decimal.rs:54-62: the integral groups; state = (started, text so far) *)
Fixpoint dec_int_groups (k : nat) (started : bool) (acc : text) : parser (bool * text) :=
  match k with
  | O => ret (started, acc)
  | S k' =>
    n <- read_be 4 ;;
    if started then dec_int_groups k' true (acc ++ pad_text 9 n)
    else if 0 <? n then dec_int_groups k' true (acc ++ dec_text n)
    else dec_int_groups k' false acc
  end.
(* decimal.rs:73-76 *)
Fixpoint dec_frac_groups (k : nat) (acc : text) : parser text :=
  match k with
  | O => ret acc
  | S k' => n <- read_be 4 ;; dec_frac_groups k' (acc ++ pad_text 9 n)
  end.

(* decimal.rs:42-82, run on the unmasked bytes; ui/uf: nine-digit groups, ci/cf: digits in the short groups *)
Definition decimal_digits (ui ci uf cf scale : N) (sign : text) : parser text :=
  '(started, acc) <-
    (let size := compressed_bytes ci in
     if 0 <? size then
       n <- read_uint_be size ;;
       let n := n mod u32max1 in
       if 0 <? n then ret (true, sign ++ dec_text n) else ret (false, sign)
     else ret (false, sign)) ;;
  '(started, acc) <- dec_int_groups (N.to_nat ui) started acc ;;
  let acc := if started then acc else acc ++ [48] in
  let acc := if 0 <? scale then acc ++ [46] else acc in
  acc <- dec_frac_groups (N.to_nat uf) acc ;;
  let size := compressed_bytes cf in
  if 0 <? size then
    n <- read_uint_be size ;;
    ret (acc ++ pad_text (N.to_nat cf) (n mod u32max1))
  else ret acc.

(* decimal.rs:10-83.  metadata: precision in the low byte, scale in the high byte. *)
Definition parse_decimal (bl : build) (metadata : N) : parser text :=
  let precision := metadata mod 256 in
  let scale := (metadata / 256) mod 256 in
  integral16 <- lift (usub 65536 bl precision scale) ;;
  let integral := integral16 mod 256 in
  let ui := integral / 9 in
  let uf := scale / 9 in
  let ci := integral - ui * 9 in
  let cf := scale - uf * 9 in
  let len := ui * 4 + compressed_bytes ci + uf * 4 + compressed_bytes cf in
  value <- read_bytes len ;;
  match value with
  | [] => fun _ _ => Panic                                   (* value[0], decimal.rs:32 *)
  | b0 :: r =>
    let negative := N.land (b2n b0) 0x80 =? 0 in
    let value := byte_xor 0x80 b0 :: r in
    let value := if negative then map (byte_xor 0xFF) value else value in
    let sign := if negative then [45] else [] in
    lift (match decimal_digits ui ci uf cf scale sign value 0%nat with
          | Ok (t, _) => Ok t
          | Err e => Err e
          | Panic => Panic
          | Diverge => Diverge
          end)
  end.
