(* What can make replicate() panic: causes to be seen in what was received. *)
From Coq Require Import Strings.String.
From Verif Require Import Base.Tac Base.Bytes Base.Text Base.Res Base.Str Model.Channel Model.Session Spec.CodecSpec Spec.CommandSpec Spec.ChannelSpec Spec.SessionSpec.
Local Open Scope N_scope.

(* a handshake whose (first part of the) scramble is empty: protocol version, server version, 0, connection id, 0 *)
Definition hello_no_scramble (p : list byte) : Prop :=
  exists b v c1 c2 c3 c4 z, p = b :: v ++ n2b 0 :: c1 :: c2 :: c3 :: c4 :: n2b 0 :: z /\ ~ In (n2b 0) v.
(* a request for another authentication method with an empty scramble, or one cut off before its end *)
Definition switch_no_scramble (p : list byte) : Prop :=
  starts_byte 0xFE p /\ exists v z, skipn 1 p = v ++ z /\ ~ In (n2b 0) v /\ (z = [] \/ z = [n2b 0] \/ (exists x, z = [n2b 0; x]) \/ exists r, z = n2b 0 :: n2b 0 :: r).
(* a length of 2^63 or more *)
Definition huge_length (p : list byte) : Prop := exists a n b, p = a ++ n2b 0xFE :: le_enc 8 n ++ b /\ 2 ^ 63 <= n < 2 ^ 64.
(* a row with a single cell *)
Definition one_cell (p : list byte) : Prop := exists n h c, p = h ++ c /\ lenenc n h /\ N.of_nat (length c) = n.

(* an exchange that ends in the two packets: a query, its answer *)
Definition answer_ends (sql : text) (a b : packet) (l : list io) : Prop :=
  exists k q ps, l = k ++ Sent q 0 :: map got (ps ++ [a; b]) /\ asks sql q.

Inductive cause (bl : build) (st : settings) (l : list io) : Prop :=
| ca_ssl : s_ssl st <> Disabled -> cause bl st l
| ca_empty k s : l = k ++ [Received [] s] -> cause bl st l
| ca_short k s : l = k ++ [Received [n2b 1] s] -> cause bl st l
| ca_number k p : bl = Debug -> l = k ++ [Received p 255] -> cause bl st l
| ca_hello p s : In (Received p s) l -> hello_no_scramble p -> cause bl st l
| ca_switch p s : In (Received p s) l -> switch_no_scramble p -> cause bl st l
| ca_cell k p s : l = k ++ [Received p s] -> huge_length p -> cause bl st l
| ca_big p s : In (Received p s) l -> 16000000 <= N.of_nat (length p) -> cause bl st l
| ca_no_row e1 e2 : answer_ends (tx "SELECT @master_binlog_checksum") e1 e2 l -> starts_byte 0xFE (fst e1) -> starts_byte 0xFE (fst e2) -> cause bl st l
| ca_one_cell row e : answer_ends (tx "show master status") row e l -> one_cell (fst row) -> starts_byte 0xFE (fst e) -> cause bl st l.
