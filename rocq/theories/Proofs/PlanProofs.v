(* Whatever the server answers: what replicate() sends, that it stops at errors, that it returns *)
From Coq Require Import Sorting.Permutation Strings.String.
From Verif Require Import Base.Tac Base.Bytes Base.Text Base.Res Base.Str Base.Parse Model.Codec Model.Gtid Model.GtidMaria Model.Events Model.Client
  Model.Commands Model.Responses Model.Channel Model.Session Spec.GtidSpec Spec.GtidMariaSpec Spec.CodecSpec Spec.CommandSpec Spec.ChannelSpec Spec.SessionSpec
  Proofs.CodecProofs Proofs.EventProofs Proofs.EventSafe Proofs.DecodeSafe Proofs.CommandProofs Proofs.ChannelProofs Proofs.ReplicateProofs.
Local Open Scope N_scope.

(* ---- the log of a computation, with conditions on the log before and after ---- *)
Section Logs.
(* [ok before l r]: l may follow [before] when the result is r *)
Variable ok : forall A, list io -> list io -> res A -> Prop.
Hypothesis ok_nil : forall A before (r : res A), ok A before [] r.
Hypothesis ok_app : forall A B before l1 l2 (a : A) (r : res B), ok A before l1 (Ok a) -> ok B (before ++ l1) l2 r -> ok B before (l1 ++ l2) r.
Hypothesis ok_err : forall A B before l e, ok A before l (Err e) -> ok B before l (Err e).
Hypothesis ok_panic : forall A B before l, ok A before l Panic -> ok B before l Panic.
Hypothesis ok_diverge : forall A B before l, ok A before l Diverge -> ok B before l Diverge.

Definition logs {A} (P : list io -> Prop) (m : act A) (Q : A -> list io -> Prop) : Prop :=
  forall w r w', P (w_log w) -> m w = (r, w') ->
    (exists l, w_log w' = w_log w ++ l /\ ok A (w_log w) l r) /\ forall a, r = Ok a -> Q a (w_log w').
Lemma logs_bind {A B} P (m : act A) Q (f : A -> act B) R : logs P m Q -> (forall a, logs (Q a) (f a) R) -> logs P (abind m f) R.
Proof.
  intros Hm Hf w r w' Hw E. unfold abind in E. destruct (m w) as [r1 w1] eqn:E1. destruct (Hm w r1 w1 Hw E1) as [(l1 & L1 & O1) Q1].
  destruct r1 as [a|e| |]; try (inv E; split; [exists l1; split; [exact L1|]|discriminate]; eauto; fail).
  destruct (Hf a w1 r w' (Q1 a eq_refl) E) as [(l2 & L2 & O2) Q2]. split; [|exact Q2].
  exists (l1 ++ l2). split; [now rewrite L2, L1, app_assoc|]. rewrite L1 in O2. eapply ok_app; eassumption.
Qed.
Lemma logs_lift {A} P (r : res A) : logs P (alift r) (fun a l => P l /\ r = Ok a).
Proof. intros w r1 w' Hw E. unfold alift in E. inv E. split; [exists []; rewrite app_nil_r; auto|]. auto. Qed.
Lemma logs_lift_err {A} P (r : res A) Q : (forall a, r <> Ok a) -> logs P (alift r) Q.
Proof. intros H w r1 w' Hw E. unfold alift in E. inv E. split; [exists []; rewrite app_nil_r; auto|]. intros a Ha. now destruct (H a). Qed.
Lemma logs_ret {A} P (a : A) : logs P (aret a) (fun b l => P l /\ b = a).
Proof. intros w r1 w' Hw E. unfold aret in E. inv E. split; [exists []; rewrite app_nil_r; auto|]. intros b Hb. inv Hb. auto. Qed.
Lemma logs_post {A} P (m : act A) (Q Q' : A -> list io -> Prop) : logs P m Q -> (forall a l, Q a l -> Q' a l) -> logs P m Q'.
Proof. intros H K w r w' Hw E. destruct (H w r w' Hw E) as [H1 H2]. split; [exact H1|]. intros a Ha. apply K, H2, Ha. Qed.
Lemma logs_pre {A} (P P' : list io -> Prop) (m : act A) Q : logs P' m Q -> (forall l, P l -> P' l) -> logs P m Q.
Proof. intros H K w r w' Hw E. apply (H w r w' (K _ Hw) E). Qed.
Lemma logs_pure {A} (P : list io -> Prop) (X : Prop) (m : act A) Q : (X -> logs P m Q) -> logs (fun l => P l /\ X) m Q.
Proof. intros H w r w' [Hw HX] E. now apply (H HX w r w'). Qed.
Lemma logs_client P : logs P a_client (fun _ l => P l).
Proof. intros w r w' Hw E. unfold a_client in E. inv E. split; [exists []; rewrite app_nil_r; auto|auto]. Qed.
Lemma logs_set_client P c : logs P (a_set_client c) (fun _ l => P l).
Proof. intros w r w' Hw E. unfold a_set_client in E. inv E. cbn [w_log]. split; [exists []; rewrite app_nil_r; auto|auto]. Qed.
Lemma logs_in {A} P (m : world -> act A) Q : (forall v, logs P (m v) Q) -> logs P (fun w => m w w) Q.
Proof. intros H w r w' Hw E. exact (H w w r w' Hw E). Qed.
Lemma logs_write (P : list io -> Prop) p s : (forall l, P l -> ok unit l [Sent p s] (Ok tt)) -> logs P (a_write p s) (fun _ l => exists k, l = k ++ [Sent p s] /\ P k).
Proof.
  intros H w r w' Hw E. unfold a_write in E. destruct (16777216 <=? N.of_nat (length p) mod u32max1).
  - inv E. split; [exists []; rewrite app_nil_r; auto|discriminate].
  - inv E. cbn [w_log]. split; [exists [Sent p s]; auto|]. intros a _. exists (w_log w). auto.
Qed.
Lemma a_read_log w r w' : a_read w = (r, w') ->
  w_client w' = w_client w /\ ((exists p, r = Ok p /\ w_log w' = w_log w ++ [got p]) \/ ((forall p, r <> Ok p) /\ w_log w' = w_log w)).
Proof.
  unfold a_read. intros E. destruct (read_packet (w_in w)) as [[[p s]|e| |] cs]; inv E; cbn [w_client w_log]; split; try reflexivity;
  [left; exists (p, s); auto|right; split; [discriminate|reflexivity]..].
Qed.
(* a read that goes unchecked: the packet is fine in this context whatever it is *)
Lemma logs_read (P : list io -> Prop) : (forall l p, P l -> ok packet l [got p] (Ok p)) -> logs P a_read (fun p l => exists k, l = k ++ [got p] /\ P k).
Proof.
  intros H w r w' Hw E. destruct (a_read_log w r w' E) as [_ [(p & -> & L)|[N L]]]; rewrite L.
  - split; [exists [got p]; auto|]. intros a Ha. inv Ha. exists (w_log w). auto.
  - split; [exists []; rewrite app_nil_r; auto|]. intros a Ha. now destruct (N a).
Qed.
End Logs.

(* ---- stopping at error packets ---- *)
Definition stops_from (A : Type) (before l : list io) (r : res A) : Prop :=
  forall a e s b, l = a ++ Received e s :: b -> starts_byte 0xFF e -> ~ in_columns (before ++ a) ->
    b = [] /\ (exists x, r = Err x) /\
    forall code state msg, error_ok code state msg -> e = n2b 0xFF :: error_body code state msg -> exists m, r = Err (EServer m code msg state).
Lemma sf_nil A before (r : res A) : stops_from A before [] r.
Proof. intros a e s b H. destruct a; discriminate H. Qed.
Lemma app_split {A} (l1 l2 a b : list A) x : l1 ++ l2 = a ++ x :: b ->
  (exists k, l1 = a ++ x :: k /\ b = k ++ l2) \/ (exists k, a = l1 ++ k /\ l2 = k ++ x :: b).
Proof.
  revert a. induction l1 as [|y l1 IH]; intros a H; [right; exists a; auto|]. destruct a as [|z a].
  - cbn [app] in H. left. exists l1. split; [|congruence]. cbn [app]. congruence.
  - cbn [app] in H. assert (H' : l1 ++ l2 = a ++ x :: b) by congruence. assert (y = z) by congruence. subst z.
    destruct (IH a H') as [(k & -> & ->)|(k & -> & ->)]; [left|right]; exists k; auto.
Qed.
Lemma sf_app A B before l1 l2 (a : A) (r : res B) : stops_from A before l1 (Ok a) -> stops_from B (before ++ l1) l2 r -> stops_from B before (l1 ++ l2) r.
Proof.
  intros H1 H2 x e s b E S C. destruct (app_split _ _ _ _ _ E) as [(k & K1 & K2)|(k & K1 & K2)].
  - destruct (H1 _ _ _ _ K1 S C) as (_ & (y & Y) & _). discriminate Y.
  - rewrite K1, app_assoc in C. exact (H2 _ _ _ _ K2 S C).
Qed.
Lemma sf_err A B before l e : stops_from A before l (Err e) -> stops_from B before l (Err e).
Proof.
  intros H a x s b E S C. destruct (H _ _ _ _ E S C) as (H1 & _ & H3). split; [exact H1|]. split; [eexists; reflexivity|].
  intros code state msg K1 K2. destruct (H3 _ _ _ K1 K2) as [m M]. exists m. congruence.
Qed.
Lemma sf_panic A B before l : stops_from A before l Panic -> stops_from B before l Panic.
Proof. intros H a x s b E S C. destruct (H _ _ _ _ E S C) as (_ & (y & Y) & _). discriminate Y. Qed.
Lemma sf_diverge A B before l : stops_from A before l Diverge -> stops_from B before l Diverge.
Proof. intros H a x s b E S C. destruct (H _ _ _ _ E S C) as (_ & (y & Y) & _). discriminate Y. Qed.
Notation stp := (logs stops_from).
Definition stp_bind {A B} P (m : act A) Q (f : A -> act B) R := logs_bind stops_from sf_app sf_err sf_panic sf_diverge P m Q f R.
Definition top : list io -> Prop := fun _ => True.
Definition topq {A} : A -> list io -> Prop := fun _ _ => True.
Lemma stp_lift {A} P (r : res A) : stp P (alift r) (fun a l => P l /\ r = Ok a).
Proof. apply logs_lift. exact sf_nil. Qed.
Lemma stp_lift0 {A} P (r : res A) : stp P (alift r) topq.
Proof. eapply logs_post; [apply stp_lift|]. intros; exact I. Qed.
Lemma stp_ret {A} P (a : A) : stp P (aret a) topq.
Proof. eapply logs_post; [apply logs_ret; exact sf_nil|]. intros; exact I. Qed.
Lemma stp_write P p s : stp P (a_write p s) (fun _ l => exists k, l = k ++ [Sent p s] /\ P k).
Proof. apply logs_write; [exact sf_nil|]. intros l _ a e q b E. destruct a as [|? [|? ?]]; discriminate E. Qed.
Lemma stp_weak {A} P (m : act A) Q : stp top m Q -> stp P m Q.
Proof. intros H. eapply logs_pre; [exact H|]. intros; exact I. Qed.
Lemma stp_pre {A} (P P' : list io -> Prop) (m : act A) Q : (forall l, P l -> P' l) -> stp P' m Q -> stp P m Q.
Proof. intros H K. eapply logs_pre; eauto. Qed.
(* the usual pattern: read, check, go on *)
Lemma check_error_stop e m : starts_byte 0xFF e -> exists x, check_error_packet e m = Err x.
Proof.
  intros [d ->]. unfold check_error_packet. rewrite byte_at_head by lia. cbn [rbind]. change (255 =? resp_error) with true. cbv iota. cbn [skipn].
  pose proof (error_packet_total d) as T. destruct (parse_error_packet d); try contradiction T; cbn [rbind]; eauto.
Qed.
Lemma stp_read_check {A} P m (k : packet -> act A) R : (forall p, stp (fun l => exists b, l = b ++ [got p] /\ P b) (k p) R) ->
  stp P (r <== a_read ;; _ <== alift (check_error_packet (fst r) m) ;; k r) R.
Proof.
  intros H w r w' Hw E. unfold abind in E. destruct (a_read w) as [r1 w1] eqn:E1.
  destruct (a_read_log w r1 w1 E1) as [_ [(p & -> & L)|[N L]]].
  - unfold alift in E. destruct (check_error_packet (fst p) m) as [u|x| |] eqn:C.
    + destruct (H p w1 r w') as [(l & L2 & S) Q]; [now exists (w_log w)|exact E|]. split; [|exact Q].
      exists (got p :: l). split; [rewrite L2, L, <- app_assoc; reflexivity|].
      intros a e s b X S1 S2. destruct a as [|y a].
      * cbn [app] in X. assert (X0 : got p = Received e s) by congruence. unfold got in X0. assert (fst p = e) by congruence. subst e.
        destruct (check_error_stop _ m S1) as [x X']. congruence.
      * cbn [app] in X. assert (X0 : l = a ++ Received e s :: b) by congruence. assert (y = got p) by congruence. subst y.
        eapply S; [exact X0|exact S1|]. rewrite L, <- app_assoc. exact S2.
    + inv E. split; [|discriminate]. exists [got p]. split; [exact L|]. intros a e s b X S1 S2.
      destruct a as [|y [|? ?]]; try discriminate X. cbn [app] in X. assert (X0 : got p = Received e s) by congruence. assert (b = []) by congruence. subst b.
      split; [reflexivity|]. split; [eauto|]. intros code state msg K1 K2. unfold got in X0. assert (Hp : fst p = e) by congruence.
      exists m. rewrite Hp, K2, check_error_ok in C by exact K1. congruence.
    + inv E. split; [|discriminate]. exists [got p]. split; [exact L|]. intros a e s b X S1 S2.
      destruct a as [|y [|? ?]]; try discriminate X. cbn [app] in X. assert (X0 : got p = Received e s) by congruence. unfold got in X0. assert (fst p = e) by congruence. subst e.
      destruct (check_error_stop _ m S1) as [x X']. congruence.
    + inv E. split; [|discriminate]. exists [got p]. split; [exact L|]. intros a e s b X S1 S2.
      destruct a as [|y [|? ?]]; try discriminate X. cbn [app] in X. assert (X0 : got p = Received e s) by congruence. unfold got in X0. assert (fst p = e) by congruence. subst e.
      destruct (check_error_stop _ m S1) as [x X']. congruence.
  - assert (E' : exists r0 : res A, r = r0 /\ (forall a, r <> Ok a) /\ w' = w1).
    { destruct r1; [now destruct (N a)|inv E..]; eexists; repeat split; try reflexivity; discriminate. }
    destruct E' as (_ & _ & NO & ->). split; [|intros a Ha; now destruct (NO a)]. exists []. rewrite app_nil_r. split; [exact L|apply sf_nil].
Qed.
(* the last step *)
Lemma stp_read_check_end P m : stp P (r <== a_read ;; alift (check_error_packet (fst r) m)) topq.
Proof.
  intros w r w' Hw E. destruct (stp_read_check P m (fun _ => aret tt) topq (fun p => stp_ret _ tt) w r w' Hw) as [H1 H2].
  - rewrite <- E. unfold abind, alift. destruct (a_read w) as [[p|e| |] w1]; try reflexivity. destruct (check_error_packet (fst p) m) as [[]|?| |]; reflexivity.
  - split; [exact H1|exact H2].
Qed.

(* ---- result sets ---- *)
Lemma in_columns_more l p : in_columns l -> ~ starts_byte 0xFE (fst p) -> in_columns (l ++ [got p]).
Proof.
  intros (a & q & s & first & rest & -> & F & K) H. exists a, q, s, first, (rest ++ [p]). split; [|split; [|exact K]].
  - rewrite <- app_assoc. cbn [app map]. now rewrite map_app.
  - apply Forall_app. split; [exact F|]. repeat constructor. exact H.
Qed.
Lemma stp_skip fuel : stp in_columns (skip_columns fuel) topq.
Proof.
  induction fuel as [|fuel IH]; cbn [skip_columns]; [apply stp_lift0|].
  eapply stp_bind.
  { apply logs_read; [exact sf_nil|]. intros l p H a e s b X S C. destruct a as [|? [|? ?]]; try discriminate X. rewrite app_nil_r in C. contradiction. }
  intros p. eapply stp_bind; [apply stp_lift|]. intros b.
  apply logs_pure. intros B. destruct (N.eqb_spec b resp_eof) as [E|E]; [apply stp_ret|].
  eapply stp_pre; [|exact IH]. intros l (k & -> & K). apply in_columns_more; [exact K|]. intros [d D]. rewrite D in B.
  rewrite byte_at_head in B by lia. apply E. unfold resp_eof. congruence.
Qed.
Lemma stp_rows fuel : forall P acc, stp P (read_rows fuel acc) topq.
Proof.
  induction fuel as [|fuel IH]; intros P acc; cbn [read_rows]; [apply stp_lift0|].
  apply stp_read_check. intros p. eapply stp_bind; [apply stp_lift|]. intros b. destruct (b =? resp_eof); [apply stp_ret|].
  eapply stp_bind; [apply stp_lift|]. intros row. apply IH.
Qed.
Definition asked (l : list io) : Prop :=
  exists a p s, l = a ++ [Sent p s] /\ (asks (tx "show master status") p \/ asks (tx "SELECT @master_binlog_checksum") p).
Lemma stp_result_set : stp asked read_result_set topq.
Proof.
  unfold read_result_set. apply stp_read_check. intros p. eapply stp_bind.
  - eapply stp_pre; [|apply (logs_in stops_from _ (fun w => skip_columns (in_size (w_in w)))); intros v; apply stp_skip].
    intros l (k & -> & a & q & s & -> & K). exists a, q, s, p, []. split; [now rewrite <- app_assoc|]. split; [constructor|exact K].
  - intros []. apply (logs_in stops_from _ (fun w => read_rows (in_size (w_in w)) [])). intros v. apply stp_rows.
Qed.
Lemma asks_query sql : asks sql (query_command sql).
Proof. apply query_read. Qed.
Lemma stp_query_rows {A} P sql (k : list (list text) -> act A) R : sql = tx "show master status" \/ sql = tx "SELECT @master_binlog_checksum" ->
  (forall rows, stp top (k rows) R) -> stp P (_ <== a_write (query_command sql) 0 ;; rows <== read_result_set ;; k rows) R.
Proof.
  intros H K. eapply stp_bind; [apply stp_write|]. intros []. eapply stp_bind.
  - eapply stp_pre; [|apply stp_result_set]. intros l (k0 & -> & _). exists k0, (query_command sql), 0. split; [reflexivity|].
    destruct H as [-> | ->]; [left|right]; apply asks_query.
  - intros rows. apply stp_weak, K.
Qed.
Lemma stp_statement P sql m : stp P (statement sql m) topq.
Proof. unfold statement. eapply stp_bind; [apply stp_write|]. intros []. apply stp_read_check_end. Qed.

Ltac stp_step :=
  lazymatch goal with
  | |- stp _ (abind a_read (fun _ => abind (alift (check_error_packet _ _)) _)) _ => apply stp_read_check; intros ?
  | |- stp _ (abind a_read (fun _ => alift (check_error_packet _ _))) _ => apply stp_read_check_end
  | |- stp _ (abind (a_write (query_command ?s) 0) (fun _ => abind read_result_set _)) _ => apply stp_query_rows; [auto|intros ?]
  | |- stp _ (abind ?m _) _ => eapply stp_bind; [|intros ?]
  | |- stp _ (aret _) _ => apply stp_ret
  | |- stp _ (alift _) _ => apply stp_lift0
  | |- stp _ (a_write _ _) _ => eapply logs_post; [apply stp_write|intros; exact I]
  | |- stp _ (a_set_client _) _ => eapply logs_post; [apply logs_set_client; exact sf_nil|intros; exact I]
  | |- stp _ a_client _ => eapply logs_post; [apply logs_client; exact sf_nil|intros; exact I]
  | |- stp _ (statement _ _) _ => apply stp_statement
  | |- stp _ (if ?b then _ else _) _ => destruct b
  | |- stp _ (match ?x with _ => _ end) _ => destruct x
  | |- stp _ (let x := _ in _) _ => cbv zeta
  end.
Ltac stp_all := repeat stp_step.
Lemma stp_sha bl ev st p sc sq ssl P : stp P (authenticate_sha_256 bl ev st p sc sq ssl) topq.
Proof. unfold authenticate_sha_256. stp_all. Qed.
Lemma stp_switch bl ev st sw sq ssl P : stp P (handle_switch bl ev st sw sq ssl) topq.
Proof. unfold handle_switch. stp_all. apply stp_sha. Qed.
Lemma stp_authenticate bl ev st hs p sq P : stp P (authenticate bl ev st hs p sq) topq.
Proof. unfold authenticate. stp_all; [apply stp_switch|apply stp_sha]. Qed.
Lemma stp_connect bl ev st P : stp P (connect bl ev st) topq.
Proof. unfold connect. stp_all. apply stp_authenticate. Qed.
Lemma stp_adjust P : stp P adjust_starting_position topq.
Proof. unfold adjust_starting_position. stp_all. Qed.
Lemma stp_mysql bl ev id P : stp P (replicate_mysql bl ev id) topq.
Proof. unfold replicate_mysql. stp_all. Qed.
Lemma stp_mariadb st id P : stp P (replicate_mariadb st id) topq.
Proof. unfold replicate_mariadb, register_gtid_slave. stp_all. Qed.
Lemma stp_checksum P : stp P set_master_binlog_checksum topq.
Proof. unfold set_master_binlog_checksum. stp_all. Qed.
Lemma stp_replicate bl ev st : stp top (replicate bl ev st) topq.
Proof.
  unfold replicate, set_master_heartbeat. eapply stp_bind; [apply stp_connect|]. intros pr. stp_step; [stp_step|]. stp_step; [stp_step|].
  eapply stp_bind; [apply stp_adjust|]. intros []. stp_step; [stp_step|]. eapply stp_bind; [apply stp_checksum|]. intros ck.
  eapply stp_bind; [|intros []; stp_step]. destruct pr; [apply stp_mariadb|apply stp_mysql].
Qed.
Lemma replicate_stops bl ev st w r w' : w_log w = [] -> replicate bl ev st w = (r, w') -> stops (w_log w') r.
Proof.
  intros L E. destruct (stp_replicate bl ev st w r w' I E) as [(l & L' & S) _]. rewrite L in *. cbn [app] in L'. rewrite L'. exact S.
Qed.

(* ---- login: packets sent in turn ---- *)
Definition turns_from (A : Type) (before l : list io) (r : res A) : Prop :=
  forall a p s b, l = a ++ Sent p s :: b -> exists a' q n, before ++ a = a' ++ [Received q n] /\ s = (n + 1) mod 256.
Lemma tf_nil A before (r : res A) : turns_from A before [] r.
Proof. intros a p s b H. destruct a; discriminate H. Qed.
Lemma tf_app A B before l1 l2 (a : A) (r : res B) : turns_from A before l1 (Ok a) -> turns_from B (before ++ l1) l2 r -> turns_from B before (l1 ++ l2) r.
Proof.
  intros H1 H2 x p s b E. destruct (app_split _ _ _ _ _ E) as [(k & K1 & K2)|(k & K1 & K2)]; [exact (H1 _ _ _ _ K1)|].
  destruct (H2 _ _ _ _ K2) as (a' & q & n & E1 & E2). exists a', q, n. split; [|exact E2]. now rewrite K1, app_assoc.
Qed.
Lemma tf_any A B before l (r : res A) (r' : res B) : turns_from A before l r -> turns_from B before l r'.
Proof. intros H. exact H. Qed.
Notation trn := (logs turns_from).
Definition trn_bind {A B} P (m : act A) Q (f : A -> act B) R :=
  logs_bind turns_from tf_app (fun A B b l e => tf_any A B b l _ _) (fun A B b l => tf_any A B b l _ _) (fun A B b l => tf_any A B b l _ _) P m Q f R.
(* the next packet to send has number s *)
Definition turn (s : N) (l : list io) : Prop := exists a q n, l = a ++ [Received q n] /\ s = (n + 1) mod 256.
Lemma trn_lift {A} P (r : res A) : trn P (alift r) (fun a l => P l /\ r = Ok a).
Proof. apply logs_lift. exact tf_nil. Qed.
Lemma trn_lift0 {A} P (r : res A) : trn P (alift r) topq.
Proof. eapply logs_post; [apply trn_lift|intros; exact I]. Qed.
Lemma trn_keep {A} P (r : res A) : trn P (alift r) (fun _ => P).
Proof. eapply logs_post; [apply trn_lift|]. cbn beta. tauto. Qed.
Lemma trn_ret {A} P (a : A) : trn P (aret a) topq.
Proof. eapply logs_post; [apply logs_ret; exact tf_nil|intros; exact I]. Qed.
Lemma trn_write p s : trn (turn s) (a_write p s) topq.
Proof.
  eapply logs_post; [apply logs_write; [exact tf_nil|]|intros; exact I]. intros l (a & q & n & -> & ->) x p' s' b E.
  destruct x as [|? [|? ?]]; try discriminate E. cbn [app] in E. exists a, q, n. rewrite app_nil_r. split; [reflexivity|congruence].
Qed.
Lemma read_packet_seq cs p s cs' : read_packet cs = (Ok (p, s), cs') -> s < 256.
Proof.
  unfold read_packet. destruct (recv_exact 4 cs []) as [[h|e| |] cs1] eqn:E1; try (intros X; inv X; fail).
  destruct (recv_exact _ cs1 []) as [[b|e| |] cs2]; intros X; try discriminate X. assert (Es : s = le_dec (skipn 3 h)) by congruence. subst s. clear X.
  assert (L : (length (skipn 3 h) <= 1)%nat).
  { assert (length h = 4%nat); [|rewrite skipn_length; lia]. clear - E1. revert E1.
    assert (G : forall n cs acc h c, recv_exact n cs acc = (Ok h, c) -> length h = (length acc + n)%nat).
    { clear. induction n as [n IH] using (well_founded_induction lt_wf). intros cs. revert n IH. induction cs as [|[bs| |] cs IHc]; intros n IH acc h c E; (destruct n as [|n]; [inv E; lia|]); cbn [recv_exact] in E; try (inv E; fail).
      destruct (Nat.leb_spec (length bs) (S n)) as [Q|Q].
      - destruct bs as [|b bs].
        + cbn [length] in E. rewrite Nat.sub_0_r, app_nil_r in E. eapply IHc; eassumption.
        + apply IH in E; [rewrite app_length in E; lia|cbn [length] in *; lia].
      - assert (E' : acc ++ firstn (S n) bs = h) by congruence. rewrite <- E', app_length, firstn_length. lia. }
    intros E. now apply G in E. }
  destruct (skipn 3 h) as [|x [|y t]]; cbn [length] in L; try lia; cbn [le_dec]; [reflexivity|]. pose proof (b2n_lt x). lia.
Qed.
Lemma trn_read P : trn P a_read (fun p l => exists k, l = k ++ [Received (fst p) (snd p)] /\ snd p < 256).
Proof.
  intros w r w' Hw E. pose proof E as E'. destruct (a_read_log w r w' E) as [_ [(p & -> & L)|[N L]]]; rewrite L.
  - split.
    + exists [got p]. split; [reflexivity|]. intros a q s b X. destruct a as [|? [|? ?]]; discriminate X.
    + intros a Ha. inv Ha. exists (w_log w). split; [reflexivity|]. unfold a_read in E'.
      destruct (read_packet (w_in w)) as [[[q s]|e| |] cs] eqn:R; inv E'. eapply read_packet_seq, R.
  - split; [exists []; rewrite app_nil_r; split; [reflexivity|apply tf_nil]|]. intros a Ha. now destruct (N a).
Qed.
Lemma trn_pre {A} (P P' : list io -> Prop) (m : act A) Q : (forall l, P l -> P' l) -> trn P' m Q -> trn P m Q.
Proof. intros H K. eapply logs_pre; eauto. Qed.
(* adding one to the sequence number received *)
Lemma trn_next bl n : trn (fun l => exists q k, l = k ++ [Received q n] /\ n < 256) (alift (uadd 256 bl n 1)) (fun s => turn s).
Proof.
  eapply logs_post; [apply trn_lift|]. cbn beta. intros s l [(q & k & -> & L) E]. exists k, q, n. split; [reflexivity|].
  unfold uadd in E. destruct (n + 1 <? 256) eqn:X.
  - inv E. symmetry. apply N.mod_small. lia.
  - destruct bl; inv E. reflexivity.
Qed.
Lemma turn_of l p : (exists k, l = k ++ [Received (fst p) (snd p)] /\ snd p < 256) -> exists q k, l = k ++ [Received q (snd p)] /\ snd p < 256.
Proof. intros (k & E & L). eauto. Qed.
Ltac trn_lifts := repeat (lazymatch goal with |- logs _ _ (abind (alift (uadd _ _ _ _)) _) _ => fail | |- logs _ _ (abind (alift _) _) _ => eapply trn_bind; [apply trn_keep|intros ?] end).
Lemma trn_sha bl ev st p sc sq ssl : trn (turn sq) (authenticate_sha_256 bl ev st p sc sq ssl) topq.
Proof.
  unfold authenticate_sha_256. eapply trn_bind; [apply trn_keep|]. intros b0.
  eapply (trn_bind _ _ (fun _ => turn sq)).
  { destruct (b0 =? 1).
    - eapply trn_bind; [apply trn_keep|]. intros b1. eapply logs_post; [apply logs_ret; exact tf_nil|]. cbn beta. tauto.
    - eapply logs_post; [apply logs_ret; exact tf_nil|]. cbn beta. tauto. }
  intros done. destruct done; [apply trn_ret|]. cbv zeta. destruct ssl.
  - eapply trn_bind; [apply trn_write|]. intros []. eapply trn_bind; [apply trn_read|]. intros r. apply trn_lift0.
  - eapply trn_bind; [apply trn_write|]. intros []. eapply trn_bind; [apply trn_read|]. intros r. trn_lifts.
    eapply trn_bind; [eapply trn_pre; [intros ?; apply turn_of|apply trn_next]|]. intros s.
    eapply trn_bind; [apply trn_write|]. intros []. eapply trn_bind; [apply trn_read|]. intros r'. apply trn_lift0.
Qed.
Lemma trn_switch bl ev st sw sq ssl : trn (turn sq) (handle_switch bl ev st sw sq ssl) topq.
Proof.
  unfold handle_switch. trn_lifts. eapply trn_bind; [apply trn_write|]. intros []. eapply trn_bind; [apply trn_read|]. intros r. trn_lifts.
  destruct (text_eqb (fst sw) caching_name); [|apply trn_ret].
  eapply trn_bind; [eapply trn_pre; [intros ?; apply turn_of|apply trn_next]|]. intros s. apply trn_sha.
Qed.
Lemma trn_authenticate bl ev st hs p sq : trn (turn sq) (authenticate bl ev st hs p sq) topq.
Proof.
  unfold authenticate. eapply (trn_bind _ _ (fun _ => turn sq)).
  { assert (R : trn (turn sq) (aret tt) (fun _ => turn sq)) by (eapply logs_post; [apply logs_ret; exact tf_nil|]; cbn beta; tauto).
    destruct (ssl_code (s_ssl st) =? 0); [exact R|]. destruct (N.land (hs_capabilities hs) cap_ssl =? 0).
    - destruct (2 <=? ssl_code (s_ssl st)); [apply logs_lift_err; [exact tf_nil|discriminate]|exact R].
    - eapply trn_bind; [apply trn_write|]. intros []. eapply trn_bind; [apply trn_lift0|]. intros ?. apply logs_lift_err; [exact tf_nil|discriminate]. }
  intros []. trn_lifts. eapply trn_bind; [apply trn_write|]. intros []. eapply trn_bind; [apply trn_read|]. intros r. trn_lifts.
  destruct (_ =? resp_ok); [apply trn_ret|]. destruct (_ =? resp_switch).
  - trn_lifts. eapply trn_bind; [eapply trn_pre; [intros ?; apply turn_of|apply trn_next]|]. intros s. apply trn_switch.
  - eapply trn_bind; [eapply trn_pre; [intros ?; apply turn_of|apply trn_next]|]. intros s. apply trn_sha.
Qed.
Lemma trn_connect bl ev st : trn top (connect bl ev st) topq.
Proof.
  unfold connect. eapply trn_bind; [apply trn_read|]. intros r. trn_lifts.
  eapply trn_bind; [eapply trn_pre; [intros ?; apply turn_of|apply trn_next]|]. intros s. eapply trn_bind; [apply trn_authenticate|]. intros []. apply trn_ret.
Qed.

(* ---- the plan ---- *)
Definition emits {A} (c : client) (m : act A) (Ps : list (list byte -> Prop)) : Prop :=
  forall w r w', w_client w = c -> m w = (r, w') ->
    w_client w' = c /\ exists l, w_log w' = w_log w ++ l /\ follows (sent l) Ps /\ forall a, r = Ok a -> length (sent l) = length Ps.
Lemma Forall2_len {A B} (R : A -> B -> Prop) l k : Forall2 R l k -> length l = length k.
Proof. induction 1; cbn [length]; congruence. Qed.
Lemma follows_nil Ps : follows [] Ps.
Proof. exists [], Ps. split; [reflexivity|constructor]. Qed.
Lemma follows_more ps P Q : follows ps P -> follows ps (P ++ Q).
Proof. intros (d & l & -> & F). exists d, (l ++ Q). split; [now rewrite app_assoc|exact F]. Qed.
Lemma follows_app ps qs P Q : follows ps P -> length ps = length P -> follows qs Q -> follows (ps ++ qs) (P ++ Q).
Proof.
  intros (d & l & -> & F) L (d2 & l2 & -> & F2). pose proof (Forall2_len _ _ _ F) as FL. rewrite app_length in L.
  destruct l; [|cbn [length] in L; lia]. rewrite app_nil_r. exists (d ++ d2), l2. split; [now rewrite app_assoc|]. now apply Forall2_app.
Qed.
Lemma sent_app a b : sent (a ++ b) = sent a ++ sent b.
Proof. apply flat_map_app. Qed.
Lemma em_bind {A B} c (m : act A) (f : A -> act B) P Q : emits c m P -> (forall a, emits c (f a) Q) -> emits c (abind m f) (P ++ Q).
Proof.
  intros Hm Hf w r w' Hw E. unfold abind in E. destruct (m w) as [r1 w1] eqn:E1. destruct (Hm w r1 w1 Hw E1) as (C1 & l1 & L1 & F1 & N1).
  destruct r1 as [a|e| |]; try (inv E; split; [reflexivity || assumption|]; exists l1; split; [exact L1|]; split; [now apply follows_more|discriminate]; fail).
  destruct (Hf a w1 r w' C1 E) as (C2 & l2 & L2 & F2 & N2). split; [exact C2|]. exists (l1 ++ l2). split; [now rewrite L2, L1, app_assoc|].
  rewrite sent_app. specialize (N1 a eq_refl). split; [now apply follows_app|]. intros b Hb. rewrite !app_length, N1, (N2 b Hb). reflexivity.
Qed.
Lemma em_bind0 {A B} c (m : act A) (f : A -> act B) Q : emits c m [] -> (forall a, emits c (f a) Q) -> emits c (abind m f) Q.
Proof. apply em_bind. Qed.
Lemma em_ret {A} c (a : A) : emits c (aret a) [].
Proof. intros w r w' Hw E. unfold aret in E. inv E. split; [reflexivity|]. exists []. rewrite app_nil_r. split; [reflexivity|]. split; [apply follows_nil|reflexivity]. Qed.
Lemma em_lift {A} c (r0 : res A) : emits c (alift r0) [].
Proof. intros w r w' Hw E. unfold alift in E. inv E. split; [reflexivity|]. exists []. rewrite app_nil_r. split; [reflexivity|]. split; [apply follows_nil|reflexivity]. Qed.
Lemma em_lift_err {A} c (r0 : res A) P : (forall a, r0 <> Ok a) -> emits c (alift r0) P.
Proof.
  intros H w r w' Hw E. unfold alift in E. inv E. split; [reflexivity|]. exists []. rewrite app_nil_r. split; [reflexivity|]. split; [apply follows_nil|].
  intros a Ha. now destruct (H a).
Qed.
Lemma em_read c : emits c a_read [].
Proof.
  intros w r w' Hw E. destruct (a_read_log w r w' E) as [C [(p & -> & L)|[_ L]]]; (split; [congruence|]).
  - exists [got p]. split; [exact L|]. split; [apply follows_nil|reflexivity].
  - exists []. rewrite app_nil_r. split; [exact L|]. split; [apply follows_nil|reflexivity].
Qed.
Lemma em_write c p (P : list byte -> Prop) : P p -> emits c (a_write p 0) [P].
Proof.
  intros H w r w' Hw E. unfold a_write in E. destruct (16777216 <=? _); inv E; (split; [reflexivity|]).
  - exists []. rewrite app_nil_r. split; [reflexivity|]. split; [apply follows_nil|discriminate].
  - exists [Sent p 0]. split; [reflexivity|]. cbn. split; [|reflexivity]. exists [P], []. split; [reflexivity|]. repeat constructor. exact H.
Qed.
Lemma em_client {A} c (f : client -> act A) P : emits c (f c) P -> emits c (abind a_client f) P.
Proof. intros H w r w' Hw E. unfold abind, a_client in E. rewrite Hw in E. exact (H w r w' Hw E). Qed.
Lemma em_in {A} c (m : world -> act A) P : (forall v, emits c (m v) P) -> emits c (fun w => m w w) P.
Proof. intros H w r w' Hw E. exact (H w w r w' Hw E). Qed.
Lemma em_skip c fuel : emits c (skip_columns fuel) [].
Proof.
  induction fuel as [|fuel IH]; cbn [skip_columns]; [apply em_lift|]. apply em_bind0; [apply em_read|]. intros p.
  apply em_bind0; [apply em_lift|]. intros b. destruct (b =? resp_eof); [apply em_ret|exact IH].
Qed.
Lemma em_rows c fuel : forall acc, emits c (read_rows fuel acc) [].
Proof.
  induction fuel as [|fuel IH]; intros acc; cbn [read_rows]; [apply em_lift|]. apply em_bind0; [apply em_read|]. intros p.
  apply em_bind0; [apply em_lift|]. intros []. apply em_bind0; [apply em_lift|]. intros b. destruct (b =? resp_eof); [apply em_ret|].
  apply em_bind0; [apply em_lift|]. intros row. apply IH.
Qed.
Lemma em_result_set c : emits c read_result_set [].
Proof.
  unfold read_result_set. apply em_bind0; [apply em_read|]. intros p. apply em_bind0; [apply em_lift|]. intros [].
  apply em_bind0; [apply (em_in c (fun w => skip_columns (in_size (w_in w)))); intros v; apply em_skip|]. intros [].
  apply (em_in c (fun w => read_rows (in_size (w_in w)) [])). intros v. apply em_rows.
Qed.
Lemma em_statement c sql m : emits c (statement sql m) [asks sql].
Proof.
  unfold statement. apply (em_bind c _ _ [asks sql] []); [apply em_write, asks_query|]. intros []. apply em_bind0; [apply em_read|]. intros p. apply em_lift.
Qed.
Lemma em_statement_p c sql m (P : list byte -> Prop) : P (query_command sql) -> emits c (statement sql m) [P].
Proof.
  intros H. unfold statement. apply (em_bind c _ _ [P] []); [now apply em_write|]. intros []. apply em_bind0; [apply em_read|]. intros p. apply em_lift.
Qed.
Lemma em_heartbeat c st : emits c (set_master_heartbeat st) [asks_heartbeat (s_heartbeat st)].
Proof.
  apply em_statement_p. exists (heartbeat_period (s_heartbeat st)). split; [apply asks_query|]. apply heartbeat_period_bounds.
Qed.
Lemma em_checksum c : emits c set_master_binlog_checksum
  [asks (tx "SET @master_binlog_checksum= @@global.binlog_checksum"); asks (tx "SELECT @master_binlog_checksum")].
Proof.
  unfold set_master_binlog_checksum. apply (em_bind c _ _ [_] [_]); [apply em_statement|]. intros [].
  apply (em_bind c _ _ [_] []); [apply em_write, asks_query|]. intros []. apply em_bind0; [apply em_result_set|]. intros rows.
  destruct rows as [|[|name ?] ?]; apply em_lift.
Qed.
(* hypotheses on numbers and the GTID set: types of the fields, and C49's conditions *)
Definition request_ok (ev : env) (st : settings) (o : options) : Prop :=
  s_server_id st < 4294967296 /\ o_pos o < 4294967296 /\
  forall s, o_strategy o = FromGtid -> o_set o = Some s ->
    set_ok s /\ set_canonical s /\ (forall d, ~ set_has s d 0) /\ Permutation s (e_order ev s) /\
    N.of_nat (length (flat_map entry_bytes s)) < 4294967000 /\ N.of_nat (length (utf8_encode (o_file o))) < 4294967296.
Definition the_id (st : settings) : N := if s_blocking st then s_server_id st else 0.
Lemma the_id_lt ev st o : request_ok ev st o -> the_id st < 4294967296.
Proof. intros (H & _). unfold the_id. destruct (s_blocking st); lia. Qed.
Lemma em_dump ev st c : request_ok ev st (c_opts c) -> emits c (a_write (dump_command (the_id st) (o_file (c_opts c)) (o_pos (c_opts c))) 0) [asks_position (c_opts c) (the_id st)].
Proof. intros H. apply em_write. apply dump_read; [eapply the_id_lt, H|apply H]. Qed.
Definition mysql_plan (st : settings) (o : options) : list (list byte -> Prop) :=
  match o_strategy o, o_set o with
  | FromGtid, Some s => [asks_gtids s o (the_id st)]
  | FromGtid, None => []
  | _, _ => [asks_position o (the_id st)]
  end.
Lemma em_mysql bl ev st c : request_ok ev st (c_opts c) -> emits c (replicate_mysql bl ev (the_id st)) (mysql_plan st (c_opts c)).
Proof.
  intros H. unfold replicate_mysql, mysql_plan. apply em_client. cbv zeta.
  destruct (o_strategy (c_opts c)) eqn:S; cbn [strategy_eqb]; try (eapply em_dump; exact H).
  destruct (o_set (c_opts c)) as [s|] eqn:E; [|apply em_lift_err; discriminate].
  destruct H as (H1 & H2 & H3). destruct (H3 s S E) as (K1 & K2 & K3 & K4 & K5 & K6).
  assert (SS : sendable (e_order ev s)) by (pose proof (set_ok_sendable s K1 K2 K3) as SS; unfold sendable in *; now rewrite <- K4).
  assert (SL : N.of_nat (length (flat_map entry_bytes (e_order ev s))) < 4294967000).
  { replace (length (flat_map entry_bytes (e_order ev s))) with (length (flat_map entry_bytes s)); [exact K5|].
    clear -K4. induction K4; cbn [flat_map]; rewrite ?app_length; lia. }
  assert (I1 : the_id st < 4294967296) by (unfold the_id; destruct (s_blocking st); lia).
  destruct (dump_gtid_read bl (the_id st) (o_file (c_opts c)) (o_pos (c_opts c)) (e_order ev s) I1 H2 K6 SS SL) as (bs & D1 & D2).
  rewrite D1. change (emits c (a_write bs 0) [asks_gtids s (c_opts c) (the_id st)]). apply em_write.
  eexists. split; [exact D2|]. cbn [sg_id sg_name sg_pos sg_set]. repeat (split; [reflexivity|]). intros d n. rewrite sent_has. unfold set_has.
  split; intros (k & us & X1 & X2); exists k, us; (split; [|exact X2]); (eapply Permutation_in; [|exact X1]); [now symmetry|assumption].
Qed.
Definition mariadb_plan (st : settings) (o : options) : list (list byte -> Prop) :=
  [asks (tx "SET @mariadb_slave_capability=4")] ++
  match o_strategy o, o_list o with
  | FromGtid, Some l => [asks (tx "SET @slave_connect_state='" ++ gtid_list_text l ++ tx "'");
                         asks (tx "SET @slave_gtid_strict_mode=0");
                         asks (tx "SET @slave_gtid_ignore_duplicates=0");
                         registers (s_server_id st); asks_position o (the_id st)]
  | FromGtid, None => []
  | _, _ => [asks_position o (the_id st)]
  end.
Lemma em_mariadb ev st c : request_ok ev st (c_opts c) -> emits c (replicate_mariadb st (the_id st)) (mariadb_plan st (c_opts c)).
Proof.
  intros H. unfold replicate_mariadb, mariadb_plan. apply em_bind; [apply em_statement|]. intros []. apply em_client. cbv zeta.
  destruct (o_strategy (c_opts c)) eqn:S; cbn [strategy_eqb]; try (apply em_bind0; [apply em_ret|intros []; eapply em_dump; exact H]).
  destruct (o_list (c_opts c)) as [l|] eqn:E.
  - apply (em_bind c _ _ [_; _; _; _] [_]); [|intros []; eapply em_dump; exact H]. unfold register_gtid_slave.
    apply (em_bind c _ _ [_] [_; _; _]); [apply em_statement|]. intros []. apply (em_bind c _ _ [_] [_; _]); [apply em_statement|]. intros [].
    apply (em_bind c _ _ [_] [_]); [apply em_statement|]. intros []. apply (em_bind c _ _ [_] []); [|intros []; apply em_bind0; [apply em_read|]; intros p; apply em_lift].
    apply em_write. apply register_read. apply H.
  - intros w r w' Hw X. unfold abind at 1, alift in X. inv X. split; [reflexivity|]. exists []. rewrite app_nil_r. split; [reflexivity|]. split; [apply follows_nil|discriminate].
Qed.

(* adjusting the position: the client may change, but only when it asks *)
Definition asks_end (o : options) : bool := match o_strategy o, o_file o with FromEnd, [] => true | _, _ => false end.
Lemma adjust_none w r w' : asks_end (c_opts (w_client w)) = false -> adjust_starting_position w = (r, w') -> r = Ok tt /\ w' = w.
Proof.
  unfold asks_end, adjust_starting_position, abind, a_client. intros H E.
  destruct (o_strategy (c_opts (w_client w))); cbn [strategy_eqb negb] in E; try (unfold aret in E; inv E; auto; fail).
  destruct (o_file (c_opts (w_client w))); [discriminate|]. unfold aret in E; inv E; auto.
Qed.
(* options after it: same sets and strategy, a position below 2^32 *)
Definition adjusted (o o' : options) : Prop :=
  o_strategy o' = o_strategy o /\ o_set o' = o_set o /\ o_list o' = o_list o /\ (o_pos o < 4294967296 -> o_pos o' < 4294967296).
Lemma adjusted_refl o : adjusted o o. Proof. unfold adjusted. auto. Qed.
Lemma adjust_asks w r w' : adjust_starting_position w = (r, w') ->
  adjusted (c_opts (w_client w)) (c_opts (w_client w')) /\
  exists l, w_log w' = w_log w ++ l /\
    follows (sent l) (if asks_end (c_opts (w_client w)) then [asks (tx "show master status")] else []) /\
    forall a, r = Ok a -> length (sent l) = length (if asks_end (c_opts (w_client w)) then [asks (tx "show master status")] else []).
Proof.
  destruct (asks_end (c_opts (w_client w))) eqn:A; intros E.
  2: { destruct (adjust_none w r w' A E) as [-> ->]. split; [apply adjusted_refl|]. exists []. rewrite app_nil_r. split; [reflexivity|]. split; [apply follows_nil|reflexivity]. }
  unfold adjust_starting_position in E. unfold abind at 1, a_client in E. unfold asks_end in A.
  set (o := c_opts (w_client w)) in *. destruct (o_strategy o) eqn:S; try discriminate A. destruct (o_file o) as [|] eqn:F; [|discriminate A].
  cbn [strategy_eqb negb] in E.
  set (m := abind (a_write (query_command (tx "show master status")) 0) (fun _ => read_result_set)).
  assert (M : emits (w_client w) m [asks (tx "show master status")]).
  { apply (em_bind _ _ _ [_] []); [apply em_write, asks_query|intros []; apply em_result_set]. }
  assert (E' : abind m (fun rows => match rows with
    | [row] => match row with
      | [] => alift Panic
      | file :: r => _ <== a_set_client (Client (with_coords o file (o_pos o)) (c_txn (w_client w)) (c_maria (w_client w)) (c_mysql (w_client w))) ;;
        match r with
        | [] => alift Panic
        | p :: _ => pos <== alift (parse_uint u32max1 p) ;; a_set_client (Client (with_coords o file pos) (c_txn (w_client w)) (c_maria (w_client w)) (c_mysql (w_client w)))
        end
      end
    | _ => alift (Err (EString no_position))
    end) w = (r, w')).
  { rewrite <- E. unfold m, abind. destruct (a_write (query_command (tx "show master status")) 0 w) as [[a|?| |] w1]; reflexivity. }
  clear E. unfold abind at 1 in E'. destruct (m w) as [r1 w1] eqn:E1. destruct (M w r1 w1 eq_refl E1) as (C1 & l & L & Fo & N).
  assert (Done : r = match r1 with Ok _ => r | Err e => Err e | Panic => Panic | Diverge => Diverge end /\ w_log w' = w_log w1 /\ adjusted o (c_opts (w_client w'))).
  { destruct r1 as [rows|e| |]; try (inv E'; rewrite C1; split; [reflexivity|]; split; [reflexivity|apply adjusted_refl]; fail).
    destruct rows as [|row [|? ?]]; try (unfold alift in E'; inv E'; rewrite C1; split; [reflexivity|]; split; [reflexivity|apply adjusted_refl]; fail).
    destruct row as [|file cells]; [unfold alift in E'; inv E'; rewrite C1; split; [reflexivity|]; split; [reflexivity|apply adjusted_refl]|].
    unfold abind, a_set_client, alift in E'. destruct cells as [|p cells]; [inv E'; cbn; repeat split; auto|].
    destruct (parse_uint u32max1 p) as [pos|e| |] eqn:P; inv E'; cbn; repeat split; auto. intros _. apply parse_uint_lt in P. exact P. }
  destruct Done as (D1 & D2 & D3). split; [exact D3|]. exists l. split; [congruence|]. split; [exact Fo|].
  intros a Ha. destruct r1 as [rows|e| |]; [exact (N rows eq_refl)|congruence..].
Qed.

Lemma plan_eq pr st o0 o : plan pr st o0 o =
  (if asks_end o0 then [asks (tx "show master status")] else []) ++ ([asks_heartbeat (s_heartbeat st)] ++
   [asks (tx "SET @master_binlog_checksum= @@global.binlog_checksum"); asks (tx "SELECT @master_binlog_checksum")] ++
   match pr with MariaDB => mariadb_plan st o | MySQL => mysql_plan st o end).
Proof. unfold plan, asks_end. destruct (o_strategy o0), (o_file o0), pr; reflexivity. Qed.
Lemma adjusted_request ev st o o' : request_ok ev st o -> adjusted o o' -> (o_strategy o = FromGtid -> o_file o' = o_file o) -> request_ok ev st o'.
Proof.
  intros (H1 & H2 & H3) (A1 & A2 & A3 & A4) K. split; [exact H1|]. split; [exact (A4 H2)|]. rewrite A1, A2. intros s S E.
  rewrite (K S). exact (H3 s S E).
Qed.
(* everything after connect *)
Definition set_up (bl : build) (ev : env) (st : settings) (pr : provider) : act checksum :=
  c <== a_client ;;
  _ <== a_set_client (client_reset c) ;;
  _ <== adjust_starting_position ;;
  _ <== set_master_heartbeat st ;;
  ck <== set_master_binlog_checksum ;;
  _ <== match pr with
       | MariaDB => replicate_mariadb st (the_id st)
       | MySQL => replicate_mysql bl ev (the_id st)
       end ;;
  aret ck.
Lemma replicate_eq bl ev st : replicate bl ev st = abind (connect bl ev st) (set_up bl ev st).
Proof. reflexivity. Qed.
Lemma set_up_plan bl ev st pr w r w' : request_ok ev st (c_opts (w_client w)) -> set_up bl ev st pr w = (r, w') ->
  exists l, w_log w' = w_log w ++ l /\ follows (sent l) (plan pr st (c_opts (w_client w)) (c_opts (w_client w'))) /\
    (forall ck, r = Ok ck -> length (sent l) = length (plan pr st (c_opts (w_client w)) (c_opts (w_client w')))).
Proof.
  intros R E. unfold set_up in E. unfold abind at 1, a_client in E. unfold abind at 1, a_set_client in E.
  set (w1 := World (client_reset (w_client w)) (w_in w) (w_log w)) in *. unfold abind at 1 in E.
  destruct (adjust_starting_position w1) as [r2 w2] eqn:E2. destruct (adjust_asks w1 r2 w2 E2) as (A & l2 & L2 & F2 & N2).
  change (c_opts (w_client w1)) with (c_opts (w_client w)) in *. change (w_log w1) with (w_log w) in *.
  assert (B : forall l o, follows l (if asks_end (c_opts (w_client w)) then [asks (tx "show master status")] else []) -> follows l (plan pr st (c_opts (w_client w)) o)).
  { intros l o H. rewrite plan_eq. now apply follows_more. }
  destruct r2 as [[]|e| |]; try (inv E; exists l2; split; [exact L2|]; split; [now apply B|discriminate]; fail).
  assert (R2 : request_ok ev st (c_opts (w_client w2))).
  { eapply adjusted_request; [exact R|exact A|]. intros S. assert (X : asks_end (c_opts (w_client w1)) = false) by (unfold asks_end; change (c_opts (w_client w1)) with (c_opts (w_client w)); now rewrite S).
    destruct (adjust_none w1 _ _ X E2) as [_ ->]. reflexivity. }
  assert (M : emits (w_client w2) (_ <== set_master_heartbeat st ;; ck <== set_master_binlog_checksum ;;
    _ <== match pr with MariaDB => replicate_mariadb st (the_id st) | MySQL => replicate_mysql bl ev (the_id st) end ;; aret ck)
    ([asks_heartbeat (s_heartbeat st)] ++ [asks (tx "SET @master_binlog_checksum= @@global.binlog_checksum"); asks (tx "SELECT @master_binlog_checksum")] ++
     match pr with MariaDB => mariadb_plan st (c_opts (w_client w2)) | MySQL => mysql_plan st (c_opts (w_client w2)) end)).
  { apply em_bind; [apply em_heartbeat|]. intros []. apply em_bind; [apply em_checksum|]. intros ck.
    rewrite <- (app_nil_r (match pr with MariaDB => _ | MySQL => _ end)).
    apply em_bind; [|intros []; apply em_ret]. destruct pr; [eapply em_mariadb; exact R2|apply em_mysql; exact R2]. }
  destruct (M w2 r w' eq_refl E) as (C3 & l3 & L3 & F3 & N3). exists (l2 ++ l3). split; [now rewrite L3, L2, app_assoc|].
  rewrite sent_app, plan_eq, C3. specialize (N2 tt eq_refl). split; [now apply follows_app|]. intros ck Hck. rewrite app_length, N2, (N3 ck Hck), <- app_length. reflexivity.
Qed.
Lemma connect_log bl ev st w r w' : connect bl ev st w = (r, w') -> exists l, w_log w' = w_log w ++ l.
Proof. intros E. destruct (trn_connect bl ev st w r w' I E) as [(l & L & _) _]. eauto. Qed.

Definition keeps {A} (m : act A) : Prop := forall w, w_client (snd (m w)) = w_client w.
Lemma kp_bind {A B} (m : act A) (f : A -> act B) : keeps m -> (forall a, keeps (f a)) -> keeps (abind m f).
Proof. intros H K w. unfold abind. specialize (H w). destruct (m w) as [[a|?| |] w']; cbn [snd] in *; try exact H. now rewrite K. Qed.
Lemma kp_ret {A} (a : A) : keeps (aret a). Proof. intros w. reflexivity. Qed.
Lemma kp_lift {A} (r : res A) : keeps (alift r). Proof. intros w. reflexivity. Qed.
Lemma kp_write p s : keeps (a_write p s). Proof. intros w. unfold a_write. destruct (_ <=? _); reflexivity. Qed.
Lemma kp_read : keeps a_read. Proof. intros w. destruct (a_read w) as [r w'] eqn:E. now destruct (a_read_log w r w' E). Qed.
Ltac kp_all := repeat (lazymatch goal with
  | |- keeps (abind _ _) => apply kp_bind; [|intros ?]
  | |- keeps (aret _) => apply kp_ret
  | |- keeps (alift _) => apply kp_lift
  | |- keeps (a_write _ _) => apply kp_write
  | |- keeps a_read => apply kp_read
  | |- keeps (if ?b then _ else _) => destruct b
  | |- keeps (let x := _ in _) => cbv zeta
  end).
Lemma kp_sha bl ev st p sc sq ssl : keeps (authenticate_sha_256 bl ev st p sc sq ssl).
Proof. unfold authenticate_sha_256. kp_all. Qed.
Lemma connect_keeps bl ev st : keeps (connect bl ev st).
Proof. unfold connect, authenticate, handle_switch. kp_all; apply kp_sha. Qed.

Lemma kp_client : keeps a_client. Proof. intros w. reflexivity. Qed.
Lemma kp_skip n : keeps (skip_columns n).
Proof. induction n as [|n IH]; cbn [skip_columns]; kp_all. exact IH. Qed.
Lemma kp_rows n : forall acc, keeps (read_rows n acc).
Proof. induction n as [|n IH]; intros acc; cbn [read_rows]; kp_all. apply IH. Qed.
Lemma kp_result_set : keeps read_result_set.
Proof. unfold read_result_set. kp_all; intros w; [apply kp_skip|apply kp_rows]. Qed.
Lemma kp_checksum : keeps set_master_binlog_checksum.
Proof.
  unfold set_master_binlog_checksum, statement. kp_all; [apply kp_result_set|]. match goal with |- keeps (match ?x with _ => _ end) => destruct x as [|[|? ?] ?] end; apply kp_lift.
Qed.
Lemma kp_request bl ev st pr id : keeps (match pr with MariaDB => replicate_mariadb st id | MySQL => replicate_mysql bl ev id end).
Proof.
  destruct pr; unfold replicate_mariadb, replicate_mysql, register_gtid_slave, statement.
  - kp_all; try apply kp_client. destruct (o_list _); kp_all.
  - kp_all; try apply kp_client. destruct (o_set _); kp_all.
Qed.
Definition set_up_rest (bl : build) (ev : env) (st : settings) (pr : provider) : act checksum :=
  _ <== set_master_heartbeat st ;;
  ck <== set_master_binlog_checksum ;;
  _ <== match pr with
       | MariaDB => replicate_mariadb st (the_id st)
       | MySQL => replicate_mysql bl ev (the_id st)
       end ;;
  aret ck.
Lemma kp_rest bl ev st pr : keeps (set_up_rest bl ev st pr).
Proof. unfold set_up_rest, set_master_heartbeat, statement. kp_all; [apply kp_checksum|exact (kp_request bl ev st MariaDB _)|exact (kp_request bl ev st MySQL _)]. Qed.
(* without FromEnd, or with a file name, the options stay as they are *)
Lemma set_up_options bl ev st pr w r w' : asks_end (c_opts (w_client w)) = false -> set_up bl ev st pr w = (r, w') -> c_opts (w_client w') = c_opts (w_client w).
Proof.
  intros X E. unfold set_up in E. unfold abind at 1, a_client in E. unfold abind at 1, a_set_client in E.
  set (w1 := World (client_reset (w_client w)) (w_in w) (w_log w)) in *. unfold abind at 1 in E. destruct (adjust_starting_position w1) as [r2 w2] eqn:E2.
  destruct (adjust_none w1 r2 w2 X E2) as [-> ->]. pose proof (kp_rest bl ev st pr w1) as K. unfold set_up_rest in K. rewrite E in K. cbn [snd] in K. now rewrite K.
Qed.

(* rows come from packets received *)
Definition from_row (l : list io) (row : list text) : Prop := exists p s, In (Received p s) l /\ parse_row_packet p = Ok row.
Definition grows {A} (m : act A) : Prop := forall w, exists l, w_log (snd (m w)) = w_log w ++ l.
Lemma gr_bind {A B} (m : act A) (f : A -> act B) : grows m -> (forall a, grows (f a)) -> grows (abind m f).
Proof.
  intros H K w. unfold abind. destruct (H w) as (l & L). destruct (m w) as [[a|?| |] w']; cbn [snd] in *; try (exists l; exact L).
  destruct (K a w') as (l' & L'). exists (l ++ l'). now rewrite L', L, app_assoc.
Qed.
Lemma gr_lift {A} (r : res A) : grows (alift r). Proof. intros w. exists []. cbn. now rewrite app_nil_r. Qed.
Lemma gr_write p s : grows (a_write p s).
Proof. intros w. unfold a_write. destruct (_ <=? _); cbn [snd w_log]; [exists []; now rewrite app_nil_r|eauto]. Qed.
Lemma gr_read : grows a_read.
Proof. intros w. destruct (a_read w) as [r w'] eqn:E. destruct (a_read_log w r w' E) as [_ [(p & _ & L)|[_ L]]]; cbn [snd]; rewrite L; [eauto|exists []; now rewrite app_nil_r]. Qed.
Ltac gr_all := repeat (lazymatch goal with
  | |- grows (abind _ _) => apply gr_bind; [|intros ?]
  | |- grows (aret ?a) => apply (gr_lift (Ok a))
  | |- grows (alift _) => apply gr_lift
  | |- grows (a_write _ _) => apply gr_write
  | |- grows a_read => apply gr_read
  | |- grows a_client => intros w; exists []; cbn; now rewrite app_nil_r
  | |- grows (if ?b then _ else _) => destruct b
  | |- grows (let x := _ in _) => cbv zeta
  end).
Lemma gr_skip n : grows (skip_columns n). Proof. induction n as [|n IH]; cbn [skip_columns]; gr_all. exact IH. Qed.
Lemma gr_rows n : forall acc, grows (read_rows n acc). Proof. induction n as [|n IH]; intros acc; cbn [read_rows]; gr_all. apply IH. Qed.
Lemma gr_result_set : grows read_result_set.
Proof. unfold read_result_set. gr_all; intros w; [apply gr_skip|apply gr_rows]. Qed.
Lemma gr_rest bl ev st pr : grows (set_up_rest bl ev st pr).
Proof.
  unfold set_up_rest, set_master_heartbeat, set_master_binlog_checksum, replicate_mariadb, replicate_mysql, register_gtid_slave, statement. gr_all; try apply gr_result_set.
  - match goal with |- grows (match ?x with _ => _ end) => destruct x as [|[|? ?] ?] end; gr_all.
  - match goal with |- grows (match ?x with _ => _ end) => destruct x end; gr_all.
  - match goal with |- grows (match ?x with _ => _ end) => destruct x end; gr_all.
Qed.
Lemma rows_from n : forall acc w rows w', read_rows n acc w = (Ok rows, w') -> Forall (from_row (w_log w)) acc -> Forall (from_row (w_log w')) rows.
Proof.
  induction n as [|n IH]; intros acc w rows w' E F; [discriminate E|]. cbn [read_rows] in E. unfold abind at 1 in E. destruct (a_read w) as [r w1] eqn:E1.
  destruct (a_read_log w r w1 E1) as [_ [(p & -> & L)|[X _]]]; [|destruct r as [p| | |]; [now destruct (X p)|discriminate E..]].
  assert (F1 : Forall (from_row (w_log w1)) acc).
  { rewrite L. eapply Forall_impl; [|exact F]. intros row (q & s & I1 & I2). exists q, s. split; [apply in_or_app; auto|exact I2]. }
  unfold abind, alift, aret in E. destruct (check_error_packet _ _) as [?|?| |]; try discriminate E. destruct (byte_at (fst p) 0) as [b|?| |]; try discriminate E.
  destruct (b =? resp_eof); [inv E; exact F1|]. destruct (parse_row_packet (fst p)) as [row|?| |] eqn:P; try discriminate E.
  apply (IH _ _ _ _ E). apply Forall_app. split; [exact F1|]. constructor; [|constructor]. exists (fst p), (snd p). split; [rewrite L; apply in_or_app; right; left; reflexivity|exact P].
Qed.
Lemma result_set_from w rows w' : read_result_set w = (Ok rows, w') -> Forall (from_row (w_log w')) rows.
Proof.
  unfold read_result_set. intros E. unfold abind at 1 in E. destruct (a_read w) as [[p|?| |] w1]; try discriminate E. unfold abind at 1, alift in E.
  destruct (check_error_packet _ _) as [?|?| |]; try discriminate E. unfold abind in E. destruct (skip_columns _ w1) as [[?|?| |] w2]; try discriminate E.
  exact (rows_from _ _ _ _ _ E (Forall_nil _)).
Qed.
Lemma parse_uint_err m t e : parse_uint m t = Err e -> e = EParseInt.
Proof. unfold parse_uint. destruct (strip_plus t); [congruence|]. destruct (forallb _ _); [|congruence]. destruct (_ <? _); congruence. Qed.
Definition same_but_coords (o o' : options) : Prop := o_set o' = o_set o /\ o_list o' = o_list o /\ o_strategy o' = o_strategy o.
Definition reported (l : list io) (file : text) (pos : N) : Prop := exists ptext cells, from_row l (file :: ptext :: cells) /\ parse_uint u32max1 ptext = Ok pos.
Lemma adjust_outcomes w r w' : asks_end (c_opts (w_client w)) = true -> adjust_starting_position w = (r, w') ->
  same_but_coords (c_opts (w_client w)) (c_opts (w_client w')) /\
  match r with
  | Ok _ => reported (w_log w') (o_file (c_opts (w_client w'))) (o_pos (c_opts (w_client w')))
  | Err e => c_opts (w_client w') = c_opts (w_client w) \/
             e = EParseInt /\ o_pos (c_opts (w_client w')) = o_pos (c_opts (w_client w)) /\ exists row, from_row (w_log w') (o_file (c_opts (w_client w')) :: row)
  | _ => c_opts (w_client w') = c_opts (w_client w) \/
         o_pos (c_opts (w_client w')) = o_pos (c_opts (w_client w)) /\ from_row (w_log w') [o_file (c_opts (w_client w'))]
  end.
Proof.
  intros A E. unfold asks_end in A. unfold adjust_starting_position in E. unfold abind at 1, a_client in E.
  assert (SB : forall o, same_but_coords o o) by (intros; repeat split).
  destruct (o_strategy (c_opts (w_client w))) eqn:ST; try discriminate A. cbn [strategy_eqb negb] in E. destruct (o_file (c_opts (w_client w))) eqn:FI; try discriminate A.
  unfold abind at 1 in E. pose proof (kp_write (query_command (tx "show master status")) 0 w) as K1.
  destruct (a_write (query_command (tx "show master status")) 0 w) as [[?|?| |] w1]; cbn [snd] in K1; try (inv E; rewrite K1; split; [apply SB|auto]; fail).
  unfold abind at 1 in E. pose proof (kp_result_set w1) as K2. destruct (read_result_set w1) as [r2 w2] eqn:E2. cbn [snd] in K2. rewrite K1 in K2.
  destruct r2 as [rows|?| |]; try (inv E; rewrite K2; split; [apply SB|auto]; fail). pose proof (result_set_from _ _ _ E2) as RF.
  destruct rows as [|row [|? ?]]; try (unfold alift in E; inv E; rewrite K2; split; [apply SB|auto]; fail). apply Forall_inv in RF.
  destruct row as [|file [|p cells]]; [unfold alift in E; inv E; rewrite K2; split; [apply SB|auto]|..]; unfold abind, a_set_client, alift in E.
  - inv E. cbn [w_client c_opts w_log with_coords o_pos o_file o_set o_list o_strategy]. split; [repeat split|]. right. auto.
  - destruct (parse_uint u32max1 p) as [pos|e| |] eqn:PU; inv E; cbn [w_client c_opts w_log with_coords o_pos o_file o_set o_list o_strategy]; (split; [repeat split|]).
    + exists p, cells. auto.
    + right. split; [now apply parse_uint_err in PU|]. split; [reflexivity|]. eauto.
    + pose proof (parse_uint_returns u32max1 p) as X. rewrite PU in X. destruct X.
    + pose proof (parse_uint_returns u32max1 p) as X. rewrite PU in X. destruct X.
Qed.

Lemma replicate_outcomes bl ev st w r w' : asks_end (c_opts (w_client w)) = true -> replicate bl ev st w = (r, w') ->
  same_but_coords (c_opts (w_client w)) (c_opts (w_client w')) /\
  match r with
  | Ok _ => reported (w_log w') (o_file (c_opts (w_client w'))) (o_pos (c_opts (w_client w')))
  | Err e => c_opts (w_client w') = c_opts (w_client w) \/ reported (w_log w') (o_file (c_opts (w_client w'))) (o_pos (c_opts (w_client w'))) \/
             e = EParseInt /\ o_pos (c_opts (w_client w')) = o_pos (c_opts (w_client w)) /\ exists row, from_row (w_log w') (o_file (c_opts (w_client w')) :: row)
  | _ => True
  end.
Proof.
  intros A E. rewrite replicate_eq in E. unfold abind in E. pose proof (connect_keeps bl ev st w) as K.
  assert (SB : forall o, same_but_coords o o) by (intros; repeat split).
  destruct (connect bl ev st w) as [[pr|x| |] w1]; cbn [snd] in K; try (inv E; rewrite K; split; [apply SB|auto]; fail). rewrite <- K in A |- *.
  unfold set_up in E. unfold abind at 1, a_client in E. unfold abind at 1, a_set_client in E.
  set (w2 := World (client_reset (w_client w1)) (w_in w1) (w_log w1)) in *. unfold abind at 1 in E. destruct (adjust_starting_position w2) as [r3 w3] eqn:E3.
  destruct (adjust_outcomes w2 r3 w3 A E3) as (S & O). change (c_opts (w_client w2)) with (c_opts (w_client w1)) in *.
  destruct r3 as [[]|e| |]; try (inv E; split; [exact S|tauto]; fail).
  pose proof (kp_rest bl ev st pr w3) as K3. destruct (gr_rest bl ev st pr w3) as (l & L). unfold set_up_rest in K3, L. rewrite E in K3, L. cbn [snd] in K3, L.
  rewrite K3, L. split; [exact S|]. assert (X : reported (w_log w3 ++ l) (o_file (c_opts (w_client w3))) (o_pos (c_opts (w_client w3)))).
  { destruct O as (ptext & cells & (p & s & I1 & I2) & P). exists ptext, cells. split; [|exact P]. exists p, s. split; [apply in_or_app; auto|exact I2]. }
  destruct r; auto.
Qed.

(* ---- termination ---- *)
Definition weight (cs : list portion) : nat := length (in_bytes cs).
Lemma recv_weight cs : forall n acc r cs', recv_exact n cs acc = (r, cs') -> r <> Diverge /\ (weight cs' <= weight cs)%nat /\ (forall a, r = Ok a -> (weight cs' + n <= weight cs)%nat).
Proof.
  unfold weight. induction cs as [|[bs| |] cs IH]; intros n acc r cs' E; (destruct n as [|n]; [cbn [recv_exact] in E; inv E; repeat split; try discriminate; intros; lia|]);
    cbn [recv_exact] in E.
  - inv E. repeat split; try discriminate; cbn; lia.
  - cbn [in_bytes flat_map]. fold (in_bytes cs). rewrite app_length. destruct (Nat.leb_spec (length bs) (S n)) as [Q|Q].
    + destruct (IH _ _ _ _ E) as (H1 & H2 & H3). split; [exact H1|]. split; [lia|]. intros a Ha. specialize (H3 a Ha). lia.
    + assert (Er : r = Ok (acc ++ firstn (S n) bs)) by congruence. assert (Ec : cs' = Got (skipn (S n) bs) :: cs) by congruence. subst r cs'.
      cbn [in_bytes flat_map]. fold (in_bytes cs). rewrite app_length, skipn_length. split; [discriminate|]. split; intros; lia.
  - inv E. cbn [in_bytes flat_map app]. fold (in_bytes cs'). repeat split; try discriminate; lia.
  - inv E. cbn [in_bytes flat_map app]. fold (in_bytes cs'). repeat split; try discriminate; lia.
Qed.
Lemma a_read_weight w r w' : a_read w = (r, w') -> r <> Diverge /\ (weight (w_in w') <= weight (w_in w))%nat /\ forall a, r = Ok a -> (weight (w_in w') < weight (w_in w))%nat.
Proof.
  unfold a_read, read_packet. intros E. destruct (recv_exact 4 (w_in w) []) as [r1 c1] eqn:E1. destruct (recv_weight _ _ _ _ _ E1) as (A1 & A2 & A3).
  destruct r1 as [h|e| |]; try (inv E; cbn [w_in]; repeat split; auto; discriminate). specialize (A3 h eq_refl).
  destruct (recv_exact (N.to_nat (le_dec (firstn 3 h))) c1 []) as [r2 c2] eqn:E2. destruct (recv_weight _ _ _ _ _ E2) as (B1 & B2 & B3).
  destruct r2 as [b|e| |]; try (inv E; cbn [w_in]; repeat split; try discriminate; try lia; auto; fail).
Qed.
Definition fin {A} (m : act A) : Prop := forall w, fst (m w) <> Diverge.
Lemma fin_bind {A B} (m : act A) (f : A -> act B) : fin m -> (forall a, fin (f a)) -> fin (abind m f).
Proof. intros H K w. unfold abind. specialize (H w). destruct (m w) as [[a|?| |] w']; cbn [fst] in *; try discriminate; [apply K|congruence]. Qed.
Lemma fin_ret {A} (a : A) : fin (aret a). Proof. intros w. discriminate. Qed.
Lemma fin_lift {A} (r : res A) : r <> Diverge -> fin (alift r). Proof. intros H w. exact H. Qed.
Lemma fin_write p s : fin (a_write p s). Proof. intros w. unfold a_write. destruct (_ <=? _); discriminate. Qed.
Lemma fin_read : fin a_read. Proof. intros w. destruct (a_read w) as [r w'] eqn:E. now destruct (a_read_weight w r w' E). Qed.
Lemma fin_client : fin a_client. Proof. intros w. discriminate. Qed.
Lemma fin_set c : fin (a_set_client c). Proof. intros w. discriminate. Qed.
Lemma returns_fin {A} (r : res A) : returns r -> r <> Diverge. Proof. intros H ->. exact H. Qed.
Lemma bind_fin {A B} (r : res A) (f : A -> res B) : r <> Diverge -> (forall a, f a <> Diverge) -> rbind r f <> Diverge.
Proof. intros H K. destruct r; cbn [rbind]; try discriminate; auto. Qed.
Lemma byte_at_fin bs i : byte_at bs i <> Diverge. Proof. unfold byte_at. destruct (nth_error bs i); discriminate. Qed.
Lemma check_fin p m : check_error_packet p m <> Diverge.
Proof.
  unfold check_error_packet. apply bind_fin; [apply byte_at_fin|]. intros b. destruct (b =? resp_error); [|discriminate].
  apply bind_fin; [apply returns_fin, error_packet_total|]. discriminate.
Qed.
Lemma on_slice_fin {A} (p : parser A) bs : pfin p -> on_slice p bs <> Diverge.
Proof. intros H. specialize (H bs 0%nat). unfold on_slice. destruct (p bs 0%nat) as [[a k]|?| |]; congruence. Qed.

Lemma psafe_null_term : psafe read_null_term_string.
Proof. apply psafe_bind; [apply psafe_read_until|]. intros bs. apply psafe_lift, from_utf8_returns. Qed.
Ltac pfn := repeat (lazymatch goal with
  | |- pfin (pbind _ _) => apply pfin_bind; [|intros ?]
  | |- pfin (ret _) => apply pfin_ret
  | |- pfin (if ?b then _ else _) => destruct b
  | |- pfin (let x := _ in _) => cbv zeta
  | |- pfin read_null_term_string => apply pfin_safe, psafe_null_term
  | |- pfin (read_bytes _) => apply pfin_bytes
  | |- pfin (read_string _) => apply pfin_string
  | |- pfin read_u8 => apply pfin_le
  | |- pfin read_u16 => apply pfin_le
  | |- pfin read_u32 => apply pfin_le
  end).
Lemma handshake_fin bs : parse_handshake bs <> Diverge.
Proof. apply on_slice_fin. unfold handshake_parser. pfn. Qed.
Lemma switch_fin bs : parse_auth_switch bs <> Diverge.
Proof. apply on_slice_fin. unfold auth_switch_parser. pfn. Qed.
Lemma row_fin bs : parse_row_packet bs <> Diverge.
Proof. apply on_slice_fin. apply pwhile_fin; [apply pfin_len_str|apply adv_len_str]. Qed.
Lemma plugin_fin n : get_auth_plugin n <> Diverge.
Proof. unfold get_auth_plugin. repeat destruct (text_eqb _ _); discriminate. Qed.
Lemma uadd_fin m bl a b : uadd m bl a b <> Diverge.
Proof. unfold uadd. destruct (_ <? _); [discriminate|]. destruct bl; discriminate. Qed.
Lemma xor_fin a b : xor_bytes a b <> Diverge.
Proof. unfold xor_bytes. destruct a, b; discriminate. Qed.
Lemma encrypt_fin cr pw sc p : encrypt_password cr pw sc p <> Diverge.
Proof. destruct p; apply xor_fin. Qed.
Lemma login_fin cr u pw d sc p n co : authenticate_command cr u pw d sc p n co <> Diverge.
Proof. unfold authenticate_command. apply bind_fin; [apply encrypt_fin|discriminate]. Qed.
Lemma gtid_fin bl id f pos s : dump_gtid_command bl id f pos s <> Diverge.
Proof.
  unfold dump_gtid_command. apply bind_fin; [|discriminate]. induction s as [|e s IH]; cbn [dump_sets]; [discriminate|].
  apply bind_fin; [|intros; apply bind_fin; [exact IH|discriminate]]. clear. induction (us_ivs (snd e)) as [|i ivs IH]; cbn [dump_intervals]; [discriminate|].
  apply bind_fin; [apply uadd_fin|]. intros. apply bind_fin; [exact IH|discriminate].
Qed.
Lemma checksum_fin t : checksum_from_name t <> Diverge.
Proof. unfold checksum_from_name. repeat destruct (text_eqb _ _); discriminate. Qed.
Lemma skip_fin fuel : forall w, (weight (w_in w) < fuel)%nat -> fst (skip_columns fuel w) <> Diverge.
Proof.
  induction fuel as [|fuel IH]; intros w H; [lia|]. cbn [skip_columns]. unfold abind at 1. destruct (a_read w) as [r w'] eqn:E.
  destruct (a_read_weight w r w' E) as (A & _ & B). destruct r as [p|e| |]; cbn [fst]; try discriminate; [|congruence]. specialize (B p eq_refl).
  unfold abind, alift. pose proof (byte_at_fin (fst p) 0) as F. destruct (byte_at (fst p) 0) as [b|?| |]; cbn [fst]; try discriminate; [|congruence].
  destruct (b =? resp_eof); [discriminate|]. apply IH. lia.
Qed.
Lemma rows_fin fuel : forall acc w, (weight (w_in w) < fuel)%nat -> fst (read_rows fuel acc w) <> Diverge.
Proof.
  induction fuel as [|fuel IH]; intros acc w H; [lia|]. cbn [read_rows]. unfold abind at 1. destruct (a_read w) as [r w'] eqn:E.
  destruct (a_read_weight w r w' E) as (A & _ & B). destruct r as [p|e| |]; cbn [fst]; try discriminate; [|congruence]. specialize (B p eq_refl).
  unfold abind, alift. pose proof (check_fin (fst p) (tx "Query result set error.")) as G. destruct (check_error_packet (fst p) _) as [u|?| |]; cbn [fst]; try discriminate; [|congruence].
  pose proof (byte_at_fin (fst p) 0) as F. destruct (byte_at (fst p) 0) as [b|?| |]; cbn [fst]; try discriminate; [|congruence].
  destruct (b =? resp_eof); [discriminate|]. pose proof (row_fin (fst p)) as K. destruct (parse_row_packet (fst p)) as [row|?| |]; cbn [fst]; try discriminate; [|congruence]. apply IH. lia.
Qed.
Lemma in_size_enough cs : (weight cs < in_size cs)%nat.
Proof. unfold weight, in_size. fold (in_bytes cs). lia. Qed.
Lemma result_set_fin : fin read_result_set.
Proof.
  unfold read_result_set. apply fin_bind; [apply fin_read|]. intros p. apply fin_bind; [apply fin_lift, check_fin|]. intros [].
  apply fin_bind; [intros w; apply skip_fin, in_size_enough|]. intros [] w. apply rows_fin, in_size_enough.
Qed.
Ltac fin_all := repeat (lazymatch goal with
  | |- fin (abind _ _) => apply fin_bind; [|intros ?]
  | |- fin (aret _) => apply fin_ret
  | |- fin (a_write _ _) => apply fin_write
  | |- fin a_read => apply fin_read
  | |- fin a_client => apply fin_client
  | |- fin (a_set_client _) => apply fin_set
  | |- fin read_result_set => apply result_set_fin
  | |- fin (alift (check_error_packet _ _)) => apply fin_lift, check_fin
  | |- fin (alift (byte_at _ _)) => apply fin_lift, byte_at_fin
  | |- fin (alift (uadd _ _ _ _)) => apply fin_lift, uadd_fin
  | |- fin (alift (xor_bytes _ _)) => apply fin_lift, xor_fin
  | |- fin (alift (parse_auth_switch _)) => apply fin_lift, switch_fin
  | |- fin (alift (parse_handshake _)) => apply fin_lift, handshake_fin
  | |- fin (alift (get_auth_plugin _)) => apply fin_lift, plugin_fin
  | |- fin (alift (auth_switch_command _ _ _ _)) => apply fin_lift, encrypt_fin
  | |- fin (alift (authenticate_command _ _ _ _ _ _ _ _)) => apply fin_lift, login_fin
  | |- fin (alift (dump_gtid_command _ _ _ _ _)) => apply fin_lift, gtid_fin
  | |- fin (alift (checksum_from_name _)) => apply fin_lift, checksum_fin
  | |- fin (alift (parse_uint _ _)) => apply fin_lift, returns_fin, parse_uint_returns
  | |- fin (alift Panic) => apply fin_lift; discriminate
  | |- fin (alift (Err _)) => apply fin_lift; discriminate
  | |- fin (statement _ _) => unfold statement
  | |- fin (if ?b then _ else _) => destruct b
  | |- fin (match ?b with _ => _ end) => destruct b
  | |- fin (let x := _ in _) => cbv zeta
  end).
Lemma replicate_fin bl ev st : (forall k m, rsa (e_crypto ev) k m <> Diverge) -> fin (replicate bl ev st).
Proof.
  intros H. unfold replicate, connect, authenticate, handle_switch, authenticate_sha_256, adjust_starting_position, set_master_heartbeat, set_master_binlog_checksum,
    replicate_mariadb, replicate_mysql, register_gtid_slave. fin_all; apply fin_lift, H.
Qed.
