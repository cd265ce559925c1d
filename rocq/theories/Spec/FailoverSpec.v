(* GTID mode: a client that changes from one server to another; MySQL, then MariaDB. *)
From Coq Require Import Permutation.
From Verif Require Import Base.Tac Base.Bytes Base.Text Base.Res Model.Gtid Model.Client Model.Session Spec.ClientSpec Spec.PipelineSpec Spec.MariaSessionSpec.
Local Open Scope N_scope.

(* a stay at one server: the server's log, and the connections to it (with any number of failed attempts between them) *)
Definition stay : Type := list txn * list session.
(* one stay after the other, with the same client; every server has a log of its own, and settings (host, password, server id, ...) may be
   different at each *)
Inductive roams (bl : build) : client -> list stay -> client -> Prop :=
| ro_nil c : roams bl c [] c
| ro_stay ev st log c xs c1 ys c2 : (forall s, Permutation s (e_order ev s)) -> s_server_id st < 4294967296 ->
    contacts bl ev st log c xs c1 -> roams bl c1 ys c2 -> roams bl c ((log, xs) :: ys) c2.
(* the transactions taken completely, over all servers, in order *)
Definition received (ys : list stay) : list txn := flat_map (fun y : stay => delivered (snd y)) ys.

(* MariaDB servers *)
Definition mstay_at : Type := list group * list msession.
Inductive mroams (bl : build) : client -> list mstay_at -> client -> Prop :=
| mro_nil c : mroams bl c [] c
| mro_stay ev st log c xs c1 ys c2 : s_server_id st < 4294967296 ->
    mcontacts bl ev st log c xs c1 -> mroams bl c1 ys c2 -> mroams bl c ((log, xs) :: ys) c2.
(* the groups the position has moved past, over all servers, in order *)
Definition mreceived (ys : list mstay_at) : list group := flat_map (fun y : mstay_at => mpassed (snd y)) ys.
