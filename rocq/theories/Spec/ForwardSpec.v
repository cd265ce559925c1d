(* Type codes of events, as the servers' documentation has them (C89-C91). *)
From Verif Require Import Base.Tac Base.Bytes Base.Res Model.Events.
Local Open Scope N_scope.

(* rows events: the first six bytes name the table *)
Definition row_codes : list N := [23; 24; 25; 30; 31; 32].
(* events that carry changes of rows: rows events of MySQL 5.1 alphas (20-22), version 1 and version 2, partial updates (39) and compressed
   transactions (40) of MySQL 8.0, compressed rows events of MariaDB (166-171) *)
Definition change_codes : list N := [20; 21; 22; 23; 24; 25; 30; 31; 32; 39; 40; 166; 167; 168; 169; 170; 171].
(* what was decoded, without the state left behind *)
Definition decoded (r : res (event * pstate)) : res event := match r with Ok (e, _) => Ok e | Err e => Err e | Panic => Panic | Diverge => Diverge end.
Definition has_rows (e : event) : Prop := match e with EvWrite _ | EvUpdate _ | EvDelete _ => True | _ => False end.

Definition code_of (e : event) (c : N) : Prop :=
  match e with
  | EvUnknown => ~ In c [2; 4; 5; 14; 15; 16; 19; 23; 24; 25; 27; 29; 30; 31; 32; 33; 35; 160; 162; 163]
  | EvDelete _ => c = 25 \/ c = 32
  | EvUpdate _ => c = 24 \/ c = 31
  | EvWrite _ => c = 23 \/ c = 30
  | EvXid _ => c = 16
  | EvIntVar _ => c = 5
  | EvUserVar _ => c = 14
  | EvQuery _ => c = 2
  | EvTableMap _ => c = 19
  | EvRotate _ => c = 4
  | EvRowsQuery _ => c = 29 \/ c = 160
  | EvHeartbeat _ => c = 27
  | EvFormat _ => c = 15
  | EvMySqlGtid _ => c = 33
  | EvPrevGtids _ => c = 35
  | EvMariaGtid _ => c = 162
  | EvMariaGtidList _ => c = 163
  end.
