(* Which step of setting up a connection a server has refused: the packets exchanged before the refusal, and the words for it. *)
From Coq Require Import Strings.String.
From Verif Require Import Base.Tac Base.Bytes Base.Text Base.Res Model.Channel Model.Session Spec.ChannelSpec Spec.SessionSpec.
Local Open Scope N_scope.

(* statements answered by one packet *)
Inductive one_answer : list byte -> text -> Prop :=
| oa_heartbeat hb p : asks_heartbeat hb p -> one_answer p (tx "Setting master heartbeat error.")
| oa_checksum p : asks (tx "SET @master_binlog_checksum= @@global.binlog_checksum") p -> one_answer p (tx "Setting master_binlog_checksum error.")
| oa_capability p : asks (tx "SET @mariadb_slave_capability=4") p -> one_answer p (tx "Setting @mariadb_slave_capability error.")
| oa_state x p : asks (tx "SET @slave_connect_state='" ++ x ++ tx "'") p -> one_answer p (tx "Setting @slave_connect_state error.")
| oa_strict p : asks (tx "SET @slave_gtid_strict_mode=0") p -> one_answer p (tx "Setting @slave_gtid_strict_mode error.")
| oa_duplicates p : asks (tx "SET @slave_gtid_ignore_duplicates=0") p -> one_answer p (tx "Setting @slave_gtid_ignore_duplicates error.")
| oa_register id p : registers id p -> one_answer p (tx "Registering slave error.").
(* statements answered by a result set *)
Definition rows_answer (p : list byte) : Prop := asks (tx "show master status") p \/ asks (tx "SELECT @master_binlog_checksum") p.

(* [before]: everything exchanged before the packet with the refusal *)
Inductive refused_step : list io -> text -> Prop :=
| rs_hello : refused_step [] (tx "Initial handshake error.")
| rs_login g p s : refused_step [got g; Sent p s] (tx "Authentication error.")
| rs_switch g p s a r s' : starts_byte 0xFE (fst a) -> refused_step [got g; Sent p s; got a; Sent r s'] (tx "Authentication switch error.")
| rs_key l s : refused_step (l ++ [Sent [n2b 2] s]) (tx "Requesting caching_sha2_password public key.")
| rs_password l s key e s' : refused_step (l ++ [Sent [n2b 2] s; got key; Sent e s']) (tx "Authentication error.")
| rs_statement l p m : one_answer p m -> refused_step (l ++ [Sent p 0]) m
| rs_rows l p : rows_answer p -> refused_step (l ++ [Sent p 0]) (tx "Reading result set error.")
| rs_row l p x xs : rows_answer p -> refused_step (l ++ [Sent p 0] ++ map got (x :: xs)) (tx "Query result set error.").

(* the refusal itself: an error packet, whose contents are handed on *)
Definition refusal (p : list byte) (code : N) (message : text) (state : option text) : Prop :=
  starts_byte 0xFF p /\ forall code' state' message', error_ok code' state' message' -> p = n2b 0xFF :: error_body code' state' message' ->
    code = code' /\ message = message' /\ state = state'.
