(* What an arbitrary sequence of committed events must leave in the checkpoint: no assumption that the events form
   transactions. *)
From Verif Require Import Base.Tac Base.Bytes Base.Text Model.Gtid Model.GtidMaria Model.Events Spec.ClientSpec.

(* the last MySQL / MariaDB GTID announced by the events, [None] if there is none *)
Definition mysql_mark (x : hev) : option gtid := match snd x with EvMySqlGtid g => Some (me_gtid g) | _ => None end.
Definition maria_mark (x : hev) : option mgtid := match snd x with EvMariaGtid g => Some (ma_gtid g) | _ => None end.
Definition latest {A} (mark : hev -> option A) (before : option A) (es : list hev) (g : A) : Prop :=
  (exists a x b, es = a ++ x :: b /\ mark x = Some g /\ Forall (fun y => mark y = None) b) \/
  (before = Some g /\ Forall (fun y => mark y = None) es).

(* a BEGIN is the last of the BEGINs and transaction ends among the events *)
Definition inside (before : bool) (es : list hev) : Prop :=
  (exists a x b, es = a ++ x :: b /\ is_begin (snd x) = true /\ Forall (fun y => is_end (snd y) = false) b) \/
  (before = true /\ Forall (fun y => is_end (snd y) = false) es).

(* x, coming after the events [pre], makes the announced transaction complete: it ends a transaction, or it is a
   statement outside of any *)
Definition completes (before : bool) (pre : list hev) (x : hev) : Prop :=
  is_end (snd x) = true \/ (is_statement (snd x) = true /\ ~ inside before pre).

(* the GTID g is complete somewhere in the events, with [rest] still to come *)
Definition recorded {A} (mark : hev -> option A) (g0 : option A) (t0 : bool) (es : list hev) (g : A) (rest : list hev) : Prop :=
  exists pre x, es = pre ++ x :: rest /\ latest mark g0 pre g /\ completes t0 pre x.
