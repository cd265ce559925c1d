(* Connections one after the other to a MariaDB server, in bytes. *)
From Coq Require Import Strings.String.
From Verif Require Import Base.Tac Base.Bytes Base.Text Base.Res Base.Str Model.GtidMaria Model.Events Model.Client Model.Responses Model.Channel Model.Session
  Spec.GtidMariaSpec Spec.ClientSpec Spec.EventSpec Spec.CommandSpec Spec.ChannelSpec Spec.SessionSpec Spec.PipelineSpec.
Local Open Scope N_scope.

Definition group_domain (t : group) : N := mg_domain (group_gtid t).
Definition group_seq (t : group) : N := mg_seq (group_gtid t).
(* the log of a server: within each domain the sequence numbers increase (gtid_strict_mode on the server) *)
Fixpoint increasing (log : list group) : Prop :=
  match log with
  | [] => True
  | t :: r => Forall (fun u => group_domain u = group_domain t -> group_seq t < group_seq u) r /\ increasing r
  end.
(* what a server sends to a replica that says it has got to these positions: of each domain the groups after its
   position, of a domain without position all *)
Definition beyond (l : list mgtid) (t : group) : bool :=
  match domain_gtid l (group_domain t) with Some g => mg_seq g <? group_seq t | None => true end.
Definition to_send (l : list mgtid) (log : list group) : list group := filter (beyond l) log.

(* the position a server reads from the statement: decimal domain-server-sequence, separated by commas, in quotes *)
Definition spelled (g : mgtid) : text := dec_text (mg_domain g) ++ tx "-" ++ dec_text (mg_server g) ++ tx "-" ++ dec_text (mg_seq g).
Definition states (q : list byte) (l : list mgtid) : Prop :=
  exists bs rest, srv_query q = Some bs /\ utf8_decode bs = Some (tx "SET @slave_connect_state='" ++ rest) /\
    quoted rest = Some (join (tx ",") (map spelled l), []) /\ Forall GtidMariaSpec.mgtid_ok l /\ NoDup (map mg_domain l).

Definition mitem_groups (i : mitem) : list group := match i with MService _ => [] | MGroup t => [t] end.
Definition mstream_groups (is : list mitem) : list group := flat_map mitem_groups is.
(* the groups that are complete in the first k events *)
Fixpoint gcompleted (k : nat) (is : list mitem) : list group :=
  match is with
  | [] => []
  | i :: r => if (k <? length (mitem_events i))%nat then [] else mitem_groups i ++ gcompleted (k - length (mitem_events i)) r
  end.
Record msession := MSession { ms_items : list mitem; ms_cut : nat }.
Definition mdelivered (xs : list msession) : list group := flat_map (fun x => gcompleted (ms_cut x) (ms_items x)) xs.


(* a stream of any groups a MariaDB server writes, statements before the end included *)
Definition mitem_any (i : mitem) : Prop := match i with MService x => is_data (snd x) = true | MGroup t => group_ok t end.
(* whether the events of a group taken so far already move the position: an end, or a statement that no BEGIN precedes *)
Fixpoint settles (es : list hev) : bool :=
  match es with
  | [] => false
  | x :: r => is_end (snd x) || is_statement (snd x) || (if is_begin (snd x) then existsb (fun y => is_end (snd y)) r else settles r)
  end.
(* the groups that the first k events move the position past *)
Fixpoint gpassed (k : nat) (is : list mitem) : list group :=
  match is with
  | [] => []
  | i :: r => if (k <? length (mitem_events i))%nat then filter (fun t => settles (firstn k (group_events t))) (mitem_groups i)
              else mitem_groups i ++ gpassed (k - length (mitem_events i)) r
  end.
Definition mpassed (xs : list msession) : list group := flat_map (fun x => gpassed (ms_cut x) (ms_items x)) xs.

Inductive mcontacts (bl : build) (ev : env) (st : settings) (log : list group) : client -> list msession -> client -> Prop :=
| mc_nil c : mcontacts bl ev st log c [] c
  (* an attempt that fails before the event stream *)
| mc_failed c cs e w' xs c2 : replicate bl ev st (World c cs []) = (Err e, w') -> mcontacts bl ev st log (w_client w') xs c2 -> mcontacts bl ev st log c xs c2
  (* after the login the packets qs are sent; the server goes by the last position stated in them; n bytes of what it
     writes arrive; the program takes some of the events that arrive and commits each *)
| mc_stream c cs ck w1 w' qs a q b l is its pk w2 n evs s c' xs c2 :
    connect bl ev st (World c cs []) = (Ok MariaDB, w1) -> replicate bl ev st (World c cs []) = (Ok ck, w') ->
    sent (w_log w') = sent (w_log w1) ++ qs -> qs = a ++ (q, 0) :: b -> states q l -> Forall (fun p => forall l', ~ states (fst p) l') b ->
    Forall mitem_any is -> mstream_groups is = to_send l log -> log_sent (Writer ck []) (mstream_events is) its pk w2 ->
    flowing (w_in w') -> in_bytes (w_in w') = firstn n (flat_map wire pk) ->
    takes bl (stream_new (w_in w') ck) (map inl evs) s -> commit_all bl (w_client w') evs = Ok c' ->
    mcontacts bl ev st log c' xs c2 -> mcontacts bl ev st log c (MSession is (length evs) :: xs) c2.
