(* Arbitrary event sequences: which GTIDs are saved (C12, C13). *)
From Coq Require Import Strings.String.
From Verif Require Import Base.Tac Base.Bytes Base.Text Model.Gtid Model.GtidMaria Model.Events Model.Client Spec.GtidMariaSpec Spec.ClientSpec.
Local Open Scope N_scope.

(* a BEGIN with no end of transaction behind it *)
Definition in_block (es : list hev) : Prop :=
  exists a b c, es = a ++ b :: c /\ is_begin (snd b) = true /\ Forall (fun x => is_end (snd x) = false) c.
(* the event e after the events es makes the client save: an end, or a statement outside of a block *)
Definition saves (es : list hev) (e : event) : Prop := is_end e = true \/ (is_statement e = true /\ ~ in_block es).
(* the last GTID event of es *)
Definition is_mysql_gtid (e : event) : bool := match e with EvMySqlGtid _ => true | _ => false end.
Definition is_maria_gtid (e : event) : bool := match e with EvMariaGtid _ => true | _ => false end.
Definition mysql_current (es : list hev) (g : gtid) : Prop :=
  exists a h m b, es = a ++ (h, EvMySqlGtid m) :: b /\ me_gtid m = g /\ Forall (fun x => is_mysql_gtid (snd x) = false) b.
Definition maria_current (es : list hev) (g : mgtid) : Prop :=
  exists a h m b, es = a ++ (h, EvMariaGtid m) :: b /\ ma_gtid m = g /\ Forall (fun x => is_maria_gtid (snd x) = false) b.
Definition mysql_saved (es : list hev) (g : gtid) : Prop :=
  exists p y c, es = p ++ y :: c /\ saves p (snd y) /\ mysql_current p g.
(* the event y after p saves g, and nothing in c saves a GTID of its domain again *)
Definition maria_saved_last (es : list hev) (g : mgtid) : Prop :=
  exists p y c, es = p ++ y :: c /\ saves p (snd y) /\ maria_current p g /\
    forall c1 y' c2 g', c = c1 ++ y' :: c2 -> saves (p ++ y :: c1) (snd y') -> maria_current (p ++ y :: c1) g' -> mg_domain g' <> mg_domain g.
Definition maria_never_saved (es : list hev) (d : N) : Prop :=
  forall p y c g, es = p ++ y :: c -> saves p (snd y) -> maria_current p g -> mg_domain g <> d.
