(* Connections one after the other to a MySQL server, in bytes, whatever the transactions of its log consist of. *)
From Verif Require Import Base.Tac Base.Bytes Base.Text Base.Res Base.Str Model.Gtid Model.Events Model.Client Model.Responses Model.Channel Model.Session
  Spec.GtidSpec Spec.ClientSpec Spec.CommandSpec Spec.ChannelSpec Spec.SessionSpec Spec.PipelineSpec Spec.MariaSessionSpec.
Local Open Scope N_scope.

(* a GTID and the events up to the next one: BEGIN ... Xid, a statement, XA START ... XA_PREPARE, XA COMMIT, one
   compressed TRANSACTION_PAYLOAD event, or anything else; a BEGIN is followed by an end *)
Record tgroup := TGroup { tg_head : header; tg_mark : mysql_gtid_event; tg_body : list hev }.
Definition tgroup_ok (t : tgroup) : Prop :=
  Forall (fun x => is_gtid (snd x) = false) (tg_body t) /\
  forall a x b, tg_body t = a ++ x :: b -> is_begin (snd x) = true -> exists y, In y b /\ is_end (snd y) = true.
Definition tgroup_events (t : tgroup) : list hev := (tg_head t, EvMySqlGtid (tg_mark t)) :: tg_body t.
Definition tgroup_id (t : tgroup) : list byte * N := (udata (g_source (me_gtid (tg_mark t))), g_txn (me_gtid (tg_mark t))).

Inductive titem := TService (x : hev) | TItem (t : tgroup).
Definition titem_ok (i : titem) : Prop := match i with TService x => is_data (snd x) = true | TItem t => tgroup_ok t end.
Definition titem_events (i : titem) : list hev := match i with TService x => [x] | TItem t => tgroup_events t end.
Definition tstream_events (is : list titem) : list hev := flat_map titem_events is.
Definition titem_groups (i : titem) : list tgroup := match i with TService _ => [] | TItem t => [t] end.
Definition tstream_groups (is : list titem) : list tgroup := flat_map titem_groups is.
(* the groups of a stream that has been taken up to its k-th event, each with the part of it that was taken *)
Fixpoint taken_parts (k : nat) (is : list titem) : list (tgroup * list hev) :=
  match is with
  | [] => []
  | i :: r => map (fun t => (t, firstn k (tgroup_events t))) (titem_groups i) ++ taken_parts (k - length (titem_events i)) r
  end.
(* those of which everything was taken, and those of which the part taken contains an end, or a statement that no BEGIN precedes *)
Definition twhole (k : nat) (is : list titem) : list tgroup :=
  map fst (filter (fun p => (length (tgroup_events (fst p)) <=? length (snd p))%nat) (taken_parts k is)).
Definition tpassed (k : nat) (is : list titem) : list tgroup := map fst (filter (fun p => settles (snd p)) (taken_parts k is)).

(* the groups a server writes for a replica that has these transactions *)
Inductive lacking (has : list byte -> N -> Prop) : list tgroup -> list tgroup -> Prop :=
| lk_nil : lacking has [] []
| lk_skip t l r : has (fst (tgroup_id t)) (snd (tgroup_id t)) -> lacking has l r -> lacking has (t :: l) r
| lk_send t l r : ~ has (fst (tgroup_id t)) (snd (tgroup_id t)) -> lacking has l r -> lacking has (t :: l) (t :: r).

Record tsession := TSession { ts_items : list titem; ts_cut : nat }.
Definition tpassed_all (xs : list tsession) : list tgroup := flat_map (fun x => tpassed (ts_cut x) (ts_items x)) xs.
Inductive tcontacts (bl : build) (ev : env) (st : settings) (log : list tgroup) : client -> list tsession -> client -> Prop :=
| tc_nil c : tcontacts bl ev st log c [] c
  (* an attempt that fails before the event stream *)
| tc_failed c cs e w' xs c2 : replicate bl ev st (World c cs []) = (Err e, w') -> tcontacts bl ev st log (w_client w') xs c2 -> tcontacts bl ev st log c xs c2
  (* as in [contacts] *)
| tc_stream c cs ck w' ps p r is its pk w2 n evs s c' xs c2 :
    lengths_fit c -> replicate bl ev st (World c cs []) = (Ok ck, w') ->
    sent (w_log w') = ps ++ [(p, 0)] -> srv_dump_gtid p = Some r ->
    Forall titem_ok is -> lacking (srv_has (sg_set r)) log (tstream_groups is) -> log_sent (Writer ck []) (tstream_events is) its pk w2 ->
    flowing (w_in w') -> in_bytes (w_in w') = firstn n (flat_map wire pk) ->
    takes bl (stream_new (w_in w') ck) (map inl evs) s -> commit_all bl (w_client w') evs = Ok c' ->
    tcontacts bl ev st log c' xs c2 -> tcontacts bl ev st log c (TSession is (length evs) :: xs) c2.
