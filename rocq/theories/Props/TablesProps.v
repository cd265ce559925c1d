(* Claimed properties of the table descriptions the decoder keeps (event_parser.rs:25-39, 113-119): C98. *)
From Coq Require Import Strings.String.
From Verif Require Import Base.Tac Base.Bytes Base.Text Base.Res Base.Str Base.Parse Base.Loop Model.Codec Model.Values Model.Cells Model.TableMap
  Model.Rows Model.Gtid Model.Events Model.Channel Spec.CodecSpec Spec.EventSpec Spec.CellSpec Spec.TableSpec Spec.RowSpec Spec.ChannelSpec Proofs.DecodeSafe Proofs.RowProofs Props.RowProps.
Local Open Scope N_scope.

(* the ids of the table maps among decoded events, in order, repetitions included *)
Definition map_ids (es : list event) : list N := flat_map (fun e => match e with EvTableMap t => [tb_id t] | _ => [] end) es.
(* the ids for which the decoder holds a description *)
Definition held (st : pstate) : list N := map fst (ps_tables st).

Lemma put_keys id t ts : (In id (map fst ts) -> map fst (tables_put id t ts) = map fst ts) /\ (~ In id (map fst ts) -> map fst (tables_put id t ts) = map fst ts ++ [id]).
Proof.
  induction ts as [|[k u] ts [IH1 IH2]]; cbn [tables_put map fst In app].
  - split; [intros []|reflexivity].
  - destruct (N.eqb_spec k id) as [->|N]; cbn [map fst].
    + split; [reflexivity|]. intros H. destruct H. now left.
    + split; intros H; f_equal; [apply IH1; destruct H; [congruence|assumption]|apply IH2; tauto].
Qed.
Lemma put_nodup id t ts : NoDup (map fst ts) -> NoDup (map fst (tables_put id t ts)).
Proof.
  intros H. destruct (in_dec N.eq_dec id (map fst ts)) as [I|I]; [now rewrite (proj1 (put_keys id t ts) I)|]. rewrite (proj2 (put_keys id t ts) I).
  apply (NoDup_Add (Add_app id _ [])). rewrite app_nil_r. auto.
Qed.
Lemma put_in id t ts k : In k (map fst (tables_put id t ts)) <-> In k (map fst ts) \/ k = id.
Proof.
  destruct (in_dec N.eq_dec id (map fst ts)) as [I|I]; [rewrite (proj1 (put_keys id t ts) I)|rewrite (proj2 (put_keys id t ts) I), in_app_iff; cbn [In]].
  - split; [auto|]. intros [H| ->]; assumption.
  - intuition congruence.
Qed.

(* ---- C98 ---- *)
(* exactly the ids of all table maps decoded so far are held, each once; nothing that is decoded (or fails to be) ever takes one away *)
Theorem C98_entries : forall bl st inputs es st', NoDup (held st) -> history bl st inputs es st' ->
  NoDup (held st') /\ (forall id, In id (held st') <-> In id (held st) \/ In id (map_ids es)) /\ (length (held st) <= length (held st'))%nat.
Proof.
  intros bl st inputs es st' ND H. induction H as [st|st h bs e st1 l es st2 P H IH|st h bs er l es st2 P H IH].
  - split; [exact ND|]. split; [|lia]. intros id. cbn [map_ids flat_map In]. tauto.
  - assert (K : held st1 = held st /\ map_ids (e :: es) = map_ids es \/ exists t, e = EvTableMap t /\ held st1 = map fst (tables_put (tb_id t) t (ps_tables st)) /\ map_ids (e :: es) = tb_id t :: map_ids es).
    { apply parse_event_state in P. subst st1. destruct e; try (left; split; reflexivity). right. exists t. auto. }
    destruct K as [[K1 K2]|(t & -> & K1 & K2)]; rewrite K2.
    + rewrite K1 in *. exact (IH ND).
    + assert (ND1 : NoDup (held st1)) by (rewrite K1; apply put_nodup; exact ND). destruct (IH ND1) as (A1 & A2 & A3). split; [exact A1|]. split.
      * intros id. rewrite A2. rewrite K1, put_in. cbn [In]. unfold held. intuition congruence.
      * assert (length (held st) <= length (held st1))%nat; [|lia]. apply NoDup_incl_length; [exact ND|]. intros k I. rewrite K1. apply put_in. left. exact I.
  - exact (IH ND).
Qed.
Print Assumptions C98_entries.
(* so, from the start of a stream or file: as many as there were different ids *)
Theorem C98_number : forall bl ck inputs es st', history bl (PState ck []) inputs es st' -> length (ps_tables st') = length (nodup N.eq_dec (map_ids es)).
Proof.
  intros bl ck inputs es st' H. assert (N0 : NoDup (held (PState ck []))) by constructor. destruct (C98_entries bl _ _ _ _ N0 H) as (A1 & A2 & _). rewrite <- (map_length fst). fold (held st').
  apply Nat.le_antisymm; apply NoDup_incl_length; auto using NoDup_nodup; intros id I.
  - apply nodup_In. apply A2 in I. destruct I as [[]|I]. exact I.
  - apply nodup_In in I. apply A2. now right.
Qed.
Print Assumptions C98_number.
(* ids have six bytes: there are never more than 2^48 entries *)
Lemma table_id_small buf pos t q : parse_table_map buf pos = Ok (t, q) -> tb_id t < 2 ^ 48.
Proof.
  unfold parse_table_map, read_u48. intros H. unfold pbind at 1 in H. destruct (read_le 6 buf pos) as [[id p1]|e| |] eqn:E; try discriminate.
  apply read_le_inv in E. destruct E as [E _]. assert (B : id < 2 ^ 48).
  { rewrite E. eapply N.lt_le_trans; [apply le_dec_lt|]. pose proof (firstn_le_length 6 (skipn pos buf)). apply N.pow_le_mono_r with (a := 256) (c := 6); lia. }
  clear E. unfold pbind in H. repeat (match type of H with match ?x with _ => _ end = _ => destruct x as [[? ?]|?| |]; try discriminate end).
  injection H as <- _. exact B.
Qed.
Lemma below m l : NoDup l -> (forall x, In x l -> x < m) -> N.of_nat (length l) <= m.
Proof.
  intros ND H. assert (K : (length l <= N.to_nat m)%nat); [|lia]. rewrite <- (seq_length (N.to_nat m) 0), <- (map_length N.of_nat). apply NoDup_incl_length; [exact ND|].
  intros x I. apply H in I. apply in_map_iff. exists (N.to_nat x). split; [lia|]. apply in_seq. lia.
Qed.
Theorem C98_limit : forall bl ck inputs es st', history bl (PState ck []) inputs es st' -> N.of_nat (length (ps_tables st')) <= 2 ^ 48.
Proof.
  intros bl ck inputs es st' H. assert (N0 : NoDup (held (PState ck []))) by constructor. destruct (C98_entries bl _ _ _ _ N0 H) as (A1 & A2 & _). rewrite <- (map_length fst).
  apply below; [exact A1|]. intros id I. apply A2 in I. destruct I as [[]|I]. clear - H I. induction H as [st|st h bs e st1 l es st2 P H IH|st h bs er l es st2 P H IH]; [destruct I| |auto].
  unfold map_ids in I. cbn [flat_map] in I. apply in_app_iff in I. destruct I as [I|I]; [|exact (IH I)]. destruct e; try contradiction. destruct I as [<-|[]].
  unfold parse_event, rbind in P. destruct (event_payload _ _) as [pl|e| |]; try discriminate.
  destruct (event_body bl (ps_tables st) h pl 0%nat) as [[e q]|e| |] eqn:E; try discriminate. injection P as -> _.
  unfold event_body, pmap in E. unfold pbind, ret in E.
  repeat (match type of E with (if ?c then _ else _) _ _ = _ => destruct c | match ?x with _ => _ end = _ => destruct x as [[? ?]|?| |] eqn:?; try discriminate end).
  all: try discriminate. injection E as <- <-. eapply table_id_small. eassumption.
Qed.
Print Assumptions C98_limit.
(* the event stream keeps them in the same way *)
Definition events_in (is : list seen) : list event := flat_map (fun x => match x with inl (_, e) => [e] | inr _ => [] end) is.
Theorem C98_stream : forall bl ck ss is st', streamed bl (PState ck []) ss is st' -> length (ps_tables st') = length (nodup N.eq_dec (map_ids (events_in is))).
Proof.
  intros bl ck ss is st' H. assert (K : exists l, history bl (PState ck []) l (events_in is) st'); [|destruct K as (l & K); exact (C98_number bl ck l _ _ K)].
  induction H as [st|st h p e st' ss is st2 P H [l IH]|st h p er ss is st2 P H [l IH]|st c s m ss is st2 H IH|st b d ss is st2 H IH]; auto.
  - exists []. constructor.
  - exists ((h, p) :: l). eapply hi_ok; eassumption.
  - exists ((h, p) :: l). eapply hi_err; eassumption.
Qed.
Print Assumptions C98_stream.
(* One table is enough to make any number of entries: the server gives it a new id whenever it opens it again.  What is kept is
   not bounded by the tables of the server. *)
Definition reopened (id : N) : table := Table id 1 (tx "shop") (tx "orders") [Column 3 0 true] [false; false; false; false; false; false; false] [].
Lemma reopened_ok id : id < 281474976710656 -> table_ok (reopened id).
Proof.
  intros H. unfold table_ok, reopened. cbn [t_id t_db t_name t_cols t_pad t_fields]. split; [exact H|]. split; [split; [valid|reflexivity]|].
  split; [split; [valid|reflexivity]|]. split; [|split; [cbn [length]; lia|split; [reflexivity|constructor]]].
  apply Forall_cons; [|apply Forall_nil]. split; [unfold known_types; cbn [In c_type]; tauto|reflexivity].
Qed.
Lemma reopened_history bl ids st : ps_checksum st = CkNone -> Forall (fun id => id < 281474976710656) ids ->
  exists st', history bl st (map (fun id => (hd_of 19, table_bytes (reopened id))) ids) (map (fun id => EvTableMap (table_map_of (reopened id))) ids) st'.
Proof.
  revert st. induction ids as [|id ids IH]; intros st C F; [exists st; constructor|]. apply Forall_cons_iff in F. destruct F as [F1 F].
  destruct (IH (PState (ps_checksum st) (tables_put id (table_map_of (reopened id)) (ps_tables st)))) as (st' & H); [exact C|exact F|]. exists st'. cbn [map]. eapply hi_ok; [|exact H].
  rewrite <- (app_nil_r (table_bytes _)). apply (C43_table_map bl st (hd_of 19) (reopened id) []); [now apply reopened_ok|reflexivity|now rewrite C].
Qed.
Theorem C98_bounded_refuted : forall bound, N.of_nat bound < 2 ^ 48 -> exists inputs es st', history Release pstate_new inputs es st' /\
  Forall (fun e => exists t, e = EvTableMap t /\ tb_database t = tx "shop" /\ tb_table t = tx "orders" /\ tb_types t = [3]) es /\ length (ps_tables st') = bound.
Proof.
  intros n B. set (ids := map N.of_nat (seq 0 n)). assert (F : Forall (fun id => id < 281474976710656) ids).
  { apply Forall_forall. intros id I. apply in_map_iff in I. destruct I as (k & <- & I). apply in_seq in I. change (2 ^ 48) with 281474976710656 in B. lia. }
  destruct (reopened_history Release ids pstate_new eq_refl F) as (st' & H). eexists. eexists. exists st'. split; [exact H|]. split.
  - apply Forall_forall. intros e I. apply in_map_iff in I. destruct I as (id & <- & _). eexists. split; [reflexivity|]. auto.
  - rewrite (C98_number _ CkNone _ _ _ H). assert (E : map_ids (map (fun id => EvTableMap (table_map_of (reopened id))) ids) = ids).
    { clear. induction ids as [|x l IH]; [reflexivity|]. unfold map_ids in *. cbn [map flat_map app table_map_of tb_id reopened t_id]. now f_equal. }
    rewrite E. rewrite nodup_fixed_point; [unfold ids; now rewrite map_length, seq_length|]. apply FinFun.Injective_map_NoDup; [|apply seq_NoDup]. intros a b. apply Nnat.Nat2N.inj.
Qed.
Print Assumptions C98_bounded_refuted.
(* four table maps, three ids *)
Example C98_example : exists st', history Release pstate_new (map (fun id => (hd_of 19, table_bytes (reopened id))) [108; 109; 108; 110])
    (map (fun id => EvTableMap (table_map_of (reopened id))) [108; 109; 108; 110]) st' /\ held st' = [108; 109; 110].
Proof.
  eexists. split.
  - do 4 (eapply hi_ok; [vm_compute; reflexivity|]). apply hi_nil.
  - reflexivity.
Qed.
