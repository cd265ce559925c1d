(* An empty packet received at any point of replicate() makes it panic (C72). *)
From Coq Require Import Strings.String.
From Verif Require Import Base.Tac Base.Bytes Base.Text Base.Res Base.Str Model.Client Model.Commands Model.Responses Model.Channel Model.Session
  Spec.ChannelSpec Spec.SessionSpec Proofs.PlanProofs.
Local Open Scope N_scope.

Definition has_empty (l : list io) : Prop := exists s, In (Received [] s) l.
Definition emp {A} (m : act A) : Prop := forall w r w', m w = (r, w') -> exists l, w_log w' = w_log w ++ l /\ (has_empty l -> r = Panic).

Lemma no_empty : ~ has_empty [].
Proof. intros [s []]. Qed.
Lemma emp_bind {A B} (m : act A) (f : A -> act B) : emp m -> (forall a, emp (f a)) -> emp (abind m f).
Proof.
  intros M F w r w' E. unfold abind in E. destruct (m w) as [r1 w1] eqn:E1. destruct (M w r1 w1 E1) as (l1 & L1 & H1).
  destruct r1 as [a|e| |]; try (injection E as <- <-; exists l1; split; [exact L1|]; intros X; specialize (H1 X); congruence).
  destruct (F a w1 r w' E) as (l2 & L2 & H2). exists (l1 ++ l2). split; [now rewrite L2, L1, <- app_assoc|]. intros [s X].
  apply in_app_or in X. destruct X as [X|X]; [|apply H2; now exists s]. assert (Ok a = Panic) by (apply H1; now exists s). discriminate.
Qed.
Lemma emp_lift {A} (r : res A) : emp (alift r).
Proof. intros w r1 w' E. injection E as <- <-. exists []. rewrite app_nil_r. split; [reflexivity|]. intros X. now destruct no_empty. Qed.
Lemma emp_ret {A} (a : A) : emp (aret a).
Proof. apply (emp_lift (Ok a)). Qed.
Lemma emp_client : emp a_client.
Proof. intros w r w' E. injection E as <- <-. exists []. rewrite app_nil_r. split; [reflexivity|]. intros X. now destruct no_empty. Qed.
Lemma emp_set c : emp (a_set_client c).
Proof. intros w r w' E. injection E as <- <-. exists []. rewrite app_nil_r. split; [reflexivity|]. intros X. now destruct no_empty. Qed.
Lemma emp_write p s : emp (a_write p s).
Proof.
  intros w r w' E. unfold a_write in E. destruct (_ <=? _); injection E as <- <-.
  - exists []. rewrite app_nil_r. split; [reflexivity|]. intros X. now destruct no_empty.
  - exists [Sent p s]. split; [reflexivity|]. intros [q [X|[]]]. discriminate.
Qed.
(* what is done with a packet first fails on the empty one *)
Lemma emp_read {A} (k : packet -> act A) : (forall s w, exists w', k ([], s) w = (Panic, w') /\ w_log w' = w_log w) -> (forall p, emp (k p)) -> emp (abind a_read k).
Proof.
  intros K F w r w' E. unfold abind in E. destruct (a_read w) as [r1 w1] eqn:R. destruct (a_read_log w r1 w1 R) as [_ [([p s] & -> & L)|[N L]]].
  - destruct (F (p, s) w1 r w' E) as (l & L2 & H). exists (got (p, s) :: l). split; [rewrite L2, L, <- app_assoc; reflexivity|].
    intros [q [X|X]]; [|apply H; now exists q]. unfold got in X. cbn [fst snd] in X. injection X as -> ->. destruct (K q w1) as (w2 & K1 & _). congruence.
  - exists []. rewrite app_nil_r. destruct r1; [now destruct (N a)|injection E as <- <-; split; [exact L|intros X; now destruct no_empty]..].
Qed.
Lemma empty_check {A} m (k : unit -> act A) w : abind (alift (check_error_packet [] m)) k w = (Panic, w).
Proof. reflexivity. Qed.
Lemma emp_read_check {A} m (k : packet -> act A) : (forall p, emp (k p)) -> emp (r <== a_read ;; _ <== alift (check_error_packet (fst r) m) ;; k r).
Proof.
  intros H. apply emp_read; [intros s w; exists w; split; reflexivity|]. intros p. apply emp_bind; [apply emp_lift|]. intros _. apply H.
Qed.
Lemma emp_read_check_end m : emp (r <== a_read ;; alift (check_error_packet (fst r) m)).
Proof. apply emp_read; [intros s w; exists w; split; reflexivity|]. intros p. apply emp_lift. Qed.
Lemma emp_in {A} (m : world -> act A) : (forall v, emp (m v)) -> emp (fun w => m w w).
Proof. intros H w r w' E. exact (H w w r w' E). Qed.

Ltac emp_step :=
  lazymatch goal with
  | |- emp (abind a_read (fun _ => abind (alift (check_error_packet _ _)) _)) => apply emp_read_check; intros ?
  | |- emp (abind a_read (fun _ => alift (check_error_packet _ _))) => apply emp_read_check_end
  | |- emp (abind ?m _) => apply emp_bind; [|intros ?]
  | |- emp (aret _) => apply emp_ret
  | |- emp (alift _) => apply emp_lift
  | |- emp (a_write _ _) => apply emp_write
  | |- emp (a_set_client _) => apply emp_set
  | |- emp a_client => apply emp_client
  | |- emp (if ?b then _ else _) => destruct b
  | |- emp (match ?x with _ => _ end) => destruct x
  | |- emp (let x := _ in _) => cbv zeta
  end.
Ltac emp_all := repeat emp_step.
Lemma emp_skip fuel : emp (skip_columns fuel).
Proof.
  induction fuel as [|fuel IH]; cbn [skip_columns]; [apply emp_lift|]. apply emp_read; [intros s w; exists w; split; reflexivity|].
  intros p. apply emp_bind; [apply emp_lift|]. intros b. destruct (b =? resp_eof); [apply emp_ret|exact IH].
Qed.
Lemma emp_rows fuel : forall acc, emp (read_rows fuel acc).
Proof. induction fuel as [|fuel IH]; intros acc; cbn [read_rows]; [apply emp_lift|]. emp_all. apply IH. Qed.
Lemma emp_result_set : emp read_result_set.
Proof.
  unfold read_result_set. apply emp_read_check. intros p. apply emp_bind.
  - apply (emp_in (fun w => skip_columns (in_size (w_in w)))). intros v. apply emp_skip.
  - intros _. apply (emp_in (fun w => read_rows (in_size (w_in w)) [])). intros v. apply emp_rows.
Qed.
Lemma emp_statement sql m : emp (statement sql m).
Proof. unfold statement. emp_all. Qed.
Lemma emp_sha bl ev st p sc sq ssl : emp (authenticate_sha_256 bl ev st p sc sq ssl).
Proof. unfold authenticate_sha_256. emp_all. Qed.
Lemma emp_switch bl ev st sw sq ssl : emp (handle_switch bl ev st sw sq ssl).
Proof. unfold handle_switch. emp_all. apply emp_sha. Qed.
Lemma emp_authenticate bl ev st hs p sq : emp (authenticate bl ev st hs p sq).
Proof. unfold authenticate. emp_all; [apply emp_switch|apply emp_sha]. Qed.
Lemma emp_connect bl ev st : emp (connect bl ev st).
Proof. unfold connect. emp_all. apply emp_authenticate. Qed.
Lemma emp_adjust : emp adjust_starting_position.
Proof. unfold adjust_starting_position. emp_all. apply emp_result_set. Qed.
Lemma emp_mysql bl ev id : emp (replicate_mysql bl ev id).
Proof. unfold replicate_mysql. emp_all. Qed.
Lemma emp_mariadb st id : emp (replicate_mariadb st id).
Proof. unfold replicate_mariadb, register_gtid_slave. emp_all; apply emp_statement. Qed.
Lemma emp_checksum : emp set_master_binlog_checksum.
Proof. unfold set_master_binlog_checksum. emp_all; [apply emp_statement|apply emp_result_set]. Qed.
Lemma emp_replicate bl ev st : emp (replicate bl ev st).
Proof.
  unfold replicate. apply emp_bind; [apply emp_connect|]. intros pr. apply emp_bind; [apply emp_client|]. intros c. apply emp_bind; [apply emp_set|]. intros _.
  apply emp_bind; [apply emp_adjust|]. intros _. apply emp_bind; [apply emp_statement|]. intros _. apply emp_bind; [apply emp_checksum|]. intros ck. cbv zeta.
  apply emp_bind; [destruct pr; [apply emp_mariadb|apply emp_mysql]|]. intros _. apply emp_ret.
Qed.
