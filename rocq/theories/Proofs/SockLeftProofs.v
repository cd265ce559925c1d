(* What replicate() leaves in the client when writes fail. *)
From Coq Require Import Strings.String.
From Verif Require Import Base.Tac Base.Bytes Base.Text Base.Res Base.Str Base.Parse Model.Codec Model.Gtid Model.GtidMaria Model.Events Model.Client Model.Commands
  Model.Responses Model.Channel Model.Session Model.SessionIo Spec.CodecSpec Spec.CommandSpec Spec.ChannelSpec Spec.SessionSpec Spec.PanicSpec Spec.GtidTextSpec Spec.SockSpec
  Proofs.CommandProofs Proofs.ChannelProofs Proofs.ReplicateProofs Proofs.PlanProofs Proofs.LoginProofs Proofs.GtidTextProofs Proofs.PanicProofs
  Proofs.TalkProofs Proofs.TalkPacketProofs Proofs.TalkLoginProofs Proofs.TalkSetupProofs Proofs.TalkLeftProofs Proofs.SockProofs Spec.TalkSpec.
Local Open Scope N_scope.

(* the client is not touched *)
Definition iokeeps {A} (m : io_act A) : Prop := forall x, w_client (k_world (snd (m x))) = w_client (k_world x).
Lemma ik_bind {A B} (m : io_act A) (f : A -> io_act B) : iokeeps m -> (forall a, iokeeps (f a)) -> iokeeps (io_bind m f).
Proof. intros H K x. unfold io_bind. specialize (H x). destruct (m x) as [[a|e| |] x']; cbn [snd] in *; auto. now rewrite (K a x'). Qed.
Lemma ik_lift {A} (r : res A) : iokeeps (io_lift r).
Proof. intros x. reflexivity. Qed.
Lemma ik_ret {A} (a : A) : iokeeps (io_ret a).
Proof. intros x. reflexivity. Qed.
Lemma ik_of {A} (m : act A) : keeps m -> iokeeps (io_of m).
Proof. intros H x. unfold io_of. specialize (H (k_world x)). destruct (m (k_world x)) as [r w]. exact H. Qed.
Lemma ik_read : iokeeps io_read.
Proof. apply ik_of. intros w. unfold a_read. destruct (read_packet (w_in w)) as [[[p s]|e| |] cs]; reflexivity. Qed.
Lemma ik_write p s : iokeeps (io_write p s).
Proof. intros x. unfold io_write. destruct (write_packet p s (k_os x)) as [[[u|e| |] bs] os]; reflexivity. Qed.
Lemma ik_client : iokeeps io_client.
Proof. apply ik_of. intros w. reflexivity. Qed.
Lemma ik_result_set : iokeeps io_result_set.
Proof. apply ik_of, kp_result_set. Qed.
Ltac ikt := repeat match goal with
  | |- iokeeps (io_bind _ _) => apply ik_bind; [|intros ?]
  | |- iokeeps (io_lift _) => apply ik_lift
  | |- iokeeps (io_ret _) => apply ik_ret
  | |- iokeeps io_client => apply ik_client
  | |- iokeeps io_read => apply ik_read
  | |- iokeeps (io_write _ _) => apply ik_write
  | |- iokeeps io_result_set => apply ik_result_set
  | |- iokeeps (if ?b then _ else _) => destruct b
  | |- iokeeps (match ?x with _ => _ end) => destruct x
  | |- iokeeps (let _ := _ in _) => cbv zeta
  end.
Lemma ik_statement sql msg : iokeeps (io_statement sql msg).
Proof. unfold io_statement. ikt. Qed.
Lemma ik_sha bl ev st p sc s u : iokeeps (io_authenticate_sha_256 bl ev st p sc s u).
Proof. unfold io_authenticate_sha_256. cbv zeta. ikt. Qed.
Lemma ik_switch bl ev st sw s u : iokeeps (io_handle_switch bl ev st sw s u).
Proof. unfold io_handle_switch. ikt. apply ik_sha. Qed.
Lemma ik_connect bl ev st : iokeeps (io_connect bl ev st).
Proof. unfold io_connect, io_authenticate. ikt; (apply ik_switch || apply ik_sha). Qed.
Definition io_rest (bl : build) (ev : env) (st : settings) (pr : provider) : io_act checksum :=
  _ <=! io_set_master_heartbeat st ;;
  ck <=! io_set_master_binlog_checksum ;;
  _ <=! match pr with
       | MariaDB => io_replicate_mariadb st (if s_blocking st then s_server_id st else 0)
       | MySQL => io_replicate_mysql bl ev (if s_blocking st then s_server_id st else 0)
       end ;;
  io_ret ck.
Lemma ik_rest bl ev st pr : iokeeps (io_rest bl ev st pr).
Proof.
  unfold io_rest, io_set_master_heartbeat, io_set_master_binlog_checksum. apply ik_bind; [apply ik_statement|]. intros _. apply ik_bind; [apply ik_bind; [apply ik_statement|intros _; ikt]|]. intros ck. apply ik_bind; [|intros _; apply ik_ret]. destruct pr.
  - unfold io_replicate_mariadb. apply ik_bind; [apply ik_statement|]. intros _. apply ik_bind; [apply ik_client|]. intros c. cbv zeta. apply ik_bind; [|intros _; apply ik_write]. destruct (strategy_eqb _ _); [|apply ik_ret].
    destruct (o_list _); [|apply ik_lift]. unfold io_register_gtid_slave. repeat (apply ik_bind; [apply ik_statement|intros _]). ikt.
  - unfold io_replicate_mysql. ikt.
Qed.
Lemma sim_rest bl ev st pr : sim (set_up_rest bl ev st pr) (io_rest bl ev st pr).
Proof.
  unfold set_up_rest, io_rest. apply sim_bind; [apply sim_statement|]. intros _. apply sim_bind.
  - unfold set_master_binlog_checksum, io_set_master_binlog_checksum. apply sim_bind; [apply sim_statement|]. intros _. simt.
  - intros ck. cbv zeta. apply sim_bind; [|intros _; apply sim_ret]. destruct pr.
    + unfold replicate_mariadb, io_replicate_mariadb. apply sim_bind; [apply sim_statement|]. intros _. apply sim_bind; [apply sim_client|]. intros c2. cbv zeta. apply sim_bind; [|intros _; apply sim_write].
      destruct (strategy_eqb _ _); [|apply sim_ret]. destruct (o_list _); [|apply sim_lift]. unfold register_gtid_slave, io_register_gtid_slave. repeat (apply sim_bind; [apply sim_statement|intros _]). simt.
    + unfold replicate_mysql, io_replicate_mysql. simt.
Qed.

(* the login ends with a packet received *)
Definition ends_read (l : list io) : Prop := exists k p s, l = k ++ [Received p s].
Definition answered {A} (m : act A) : Prop := forall w a w', m w = (Ok a, w') -> w_log w' = w_log w \/ exists l, ends_read l /\ w_log w' = w_log w ++ l.
Definition answers {A} (m : act A) : Prop := forall w a w', m w = (Ok a, w') -> exists l, ends_read l /\ w_log w' = w_log w ++ l.
Lemma er_app a l : ends_read l -> ends_read (a ++ l).
Proof. intros (k & p & s & ->). exists (a ++ k), p, s. now rewrite app_assoc. Qed.
Lemma an_read : answers a_read.
Proof. intros w a w' H. unfold a_read in H. destruct (read_packet (w_in w)) as [[[p s]|e| |] cs]; inv H. exists [Received p s]. split; [exists [], p, s; reflexivity|reflexivity]. Qed.
Lemma ad_lift {A} (r : res A) : answered (alift r).
Proof. intros w a w' H. inv H. auto. Qed.
Lemma ad_ret {A} (a : A) : answered (aret a).
Proof. exact (ad_lift (Ok a)). Qed.
Lemma an_ad {A} (m : act A) : answers m -> answered m.
Proof. intros H w a w' E. right. eauto. Qed.
Lemma an_none {A B} (m : act A) (f : A -> act B) : (forall w, exists l, w_log (snd (m w)) = w_log w ++ l) -> (forall a, answers (f a)) -> answers (abind m f).
Proof. intros G H w b w' E. unfold abind in E. specialize (G w). destruct (m w) as [[a|e| |] w1]; try discriminate E. cbn [snd] in G. destruct G as (l & L). destruct (H a _ _ _ E) as (l2 & ER & L2). exists (l ++ l2). split; [now apply er_app|]. now rewrite L2, L, app_assoc. Qed.
Lemma an_some {A B} (m : act A) (f : A -> act B) : answers m -> (forall a, answered (f a)) -> answers (abind m f).
Proof.
  intros G H w b w' E. unfold abind in E. destruct (m w) as [[a|e| |] w1] eqn:E1; try discriminate E. destruct (G _ _ _ E1) as (l & ER & L). destruct (H a _ _ _ E) as [K|(l2 & ER2 & L2)]; [exists l; rewrite K; auto|].
  exists (l ++ l2). split; [now apply er_app|]. now rewrite L2, L, app_assoc.
Qed.
Lemma ad_bind {A B} (m : act A) (f : A -> act B) : answered m -> (forall a, answered (f a)) -> answered (abind m f).
Proof.
  intros G H w b w' E. unfold abind in E. destruct (m w) as [[a|e| |] w1] eqn:E1; try discriminate E. destruct (G _ _ _ E1) as [L|(l & ER & L)].
  - destruct (H a _ _ _ E) as [K|(l2 & ER2 & L2)]; [left; congruence|right; exists l2; rewrite <- L; auto].
  - right. destruct (H a _ _ _ E) as [K|(l2 & ER2 & L2)]; [exists l; rewrite K; auto|]. exists (l ++ l2). split; [now apply er_app|]. now rewrite L2, L, app_assoc.
Qed.
Lemma gr_lift {A} (r : res A) : forall w, exists l, w_log (snd (alift r w)) = w_log w ++ l.
Proof. intros w. exists []. cbn. now rewrite app_nil_r. Qed.
Lemma gr_write p s : forall w, exists l, w_log (snd (a_write p s w)) = w_log w ++ l.
Proof. intros w. destruct (sim_write p s w) as (l & L & _). eauto. Qed.
Lemma ad_sha bl ev st p sc s u : answered (authenticate_sha_256 bl ev st p sc s u).
Proof.
  unfold authenticate_sha_256. cbv zeta. apply ad_bind; [apply ad_lift|]. intros b0. apply ad_bind; [destruct (b0 =? 1); [apply ad_bind; [apply ad_lift|intros b1; apply ad_ret]|apply ad_ret]|]. intros [|]; [apply ad_ret|]. apply an_ad. destruct u.
  - apply an_none; [apply gr_write|]. intros _. apply an_some; [apply an_read|]. intros r. apply ad_lift.
  - apply an_none; [apply gr_write|]. intros _. apply an_some; [apply an_read|]. intros r. apply ad_bind; [apply ad_lift|intros _]. apply ad_bind; [apply ad_lift|intros x]. apply ad_bind; [apply ad_lift|intros e].
    apply ad_bind; [apply ad_lift|intros s2]. apply an_ad. apply an_none; [apply gr_write|]. intros _. apply an_some; [apply an_read|]. intros r2. apply ad_lift.
Qed.
Lemma an_switch bl ev st sw s u : answers (handle_switch bl ev st sw s u).
Proof.
  unfold handle_switch. apply an_none; [apply gr_lift|intros p]. apply an_none; [apply gr_lift|intros c]. apply an_none; [apply gr_write|intros _]. apply an_some; [apply an_read|]. intros r. apply ad_bind; [apply ad_lift|intros _].
  destruct (text_eqb _ _); [|apply ad_ret]. apply ad_bind; [apply ad_lift|intros s2]. apply ad_sha.
Qed.
Lemma an_connect bl ev st : answers (connect bl ev st).
Proof.
  unfold connect. apply an_some; [apply an_read|]. intros r. apply ad_bind; [apply ad_lift|intros _]. apply ad_bind; [apply ad_lift|intros hs]. apply ad_bind; [apply ad_lift|intros p]. apply ad_bind; [apply ad_lift|intros s].
  apply ad_bind; [|intros _; apply ad_ret]. apply an_ad. unfold authenticate. apply an_none.
  - intros w. destruct (ssl_code (s_ssl st) =? 0); [exists []; cbn; now rewrite app_nil_r|]. destruct (N.land _ _ =? 0); [destruct (2 <=? _); exists []; cbn; now rewrite app_nil_r|].
    unfold abind. destruct (gr_write (ssl_request_command utf8_mb4_general_ci) s w) as (l & L). destruct (a_write (ssl_request_command utf8_mb4_general_ci) s w) as [[[]|e| |] w1]; cbn [snd] in *; eauto. unfold alift. destruct (uadd 256 bl s 1); cbn [snd]; eauto.
  - intros _. apply an_none; [apply gr_lift|intros c]. apply an_none; [apply gr_write|intros _]. apply an_some; [apply an_read|]. intros r2. apply ad_bind; [apply ad_lift|intros _]. apply ad_bind; [apply ad_lift|intros b]. destruct (b =? resp_ok); [apply ad_ret|].
    destruct (b =? resp_switch); (apply ad_bind; [apply ad_lift|intros s2]); [|apply ad_sha]. apply ad_bind; [apply ad_lift|intros s3]. apply an_ad, an_switch.
Qed.
Lemma received_end l1 p s l2 k q n : l1 ++ Sent p s :: l2 = k ++ [Received q n] -> received l2 <> [].
Proof.
  intros E. destruct l2 as [|e l3 _] using rev_ind.
  - apply app_inj_tail in E. destruct E as [_ E]. discriminate E.
  - change (l1 ++ Sent p s :: l3 ++ [e]) with (l1 ++ (Sent p s :: l3) ++ [e]) in E. rewrite app_assoc in E. apply app_inj_tail in E. destruct E as [_ ->]. rewrite received_app. cbn. intros Z. destruct (received l3); discriminate Z.
Qed.
(* what follows the statement *)
Definition adj_rest (c : client) : act unit :=
  rows <== read_result_set ;;
  match rows with
  | [row] =>
    match row with
    | [] => alift Panic
    | file :: r =>
      _ <== a_set_client (Client (with_coords (c_opts c) file (o_pos (c_opts c))) (c_txn c) (c_maria c) (c_mysql c)) ;;
      match r with
      | [] => alift Panic
      | p :: _ =>
        pos <== alift (parse_uint u32max1 p) ;;
        a_set_client (Client (with_coords (c_opts c) file pos) (c_txn c) (c_maria c) (c_mysql c))
      end
    end
  | _ => alift (Err (EString no_position))
  end.
Definition io_adj_rest (c : client) : io_act unit :=
  rows <=! io_result_set ;;
  match rows with
  | [row] =>
    match row with
    | [] => io_lift Panic
    | file :: r =>
      _ <=! io_set_client (Client (with_coords (c_opts c) file (o_pos (c_opts c))) (c_txn c) (c_maria c) (c_mysql c)) ;;
      match r with
      | [] => io_lift Panic
      | p :: _ =>
        pos <=! io_lift (parse_uint u32max1 p) ;;
        io_set_client (Client (with_coords (c_opts c) file pos) (c_txn c) (c_maria c) (c_mysql c))
      end
    end
  | _ => io_lift (Err (EString no_position))
  end.
Lemma sim_adj_rest c : sim (adj_rest c) (io_adj_rest c).
Proof. unfold adj_rest, io_adj_rest. simt. Qed.
Lemma sil_set c : silent (a_set_client c).
Proof. intros w. exists []. cbn. now rewrite app_nil_r. Qed.
Lemma sil_result_set : silent read_result_set.
Proof. apply sil_bind; [apply sil_read|]. intros r. apply sil_bind; [apply sil_lift|]. intros _. apply sil_bind; [intros w; apply sil_skip|]. intros _ w. apply sil_rows. Qed.
Lemma sil_adj_rest c : silent (adj_rest c).
Proof.
  unfold adj_rest. apply sil_bind; [apply sil_result_set|]. intros [|[|file r] [|row2 rows]]; try apply sil_lift. apply sil_bind; [apply sil_set|]. intros _. destruct r as [|p r]; [apply sil_lift|]. apply sil_bind; [apply sil_lift|]. intros pos. apply sil_set.
Qed.
Lemma io_adj_rest_whole c w os out : k_world (snd (io_adj_rest c (Sock w os out))) = snd (adj_rest c w).
Proof.
  destruct (sim_adj_rest c w) as (l & L & S). specialize (S os out). destruct (io_adj_rest c (Sock w os out)) as [r x]. cbn [snd]. destruct S as [(_ & K & _)|(l1 & p & s & l2 & ? & ? & ? & ? & -> & _)]; [exact K|].
  exfalso. destruct (sil_adj_rest c w) as (l' & L' & S'). rewrite L in L'. apply app_inv_head in L'. subst l'. rewrite sent_app in S'. apply app_eq_nil in S'. destruct S' as [_ S']. discriminate S'.
Qed.
Section Left.
Context (bl : build) (ev : env) (st : settings).
Context (HB : s_heartbeat st < 2 ^ 100) (HH : hashes ev) (NF : names_fit st).
Context (RS : forall k m, rsa (e_crypto ev) k m <> Panic /\ forall e, rsa (e_crypto ev) k m = Ok e -> N.of_nat (length e) < 16777216).
Lemma no_rows row rows : ~ rows_are [] (row :: rows).
Proof. intros (rs & p & E & _). destruct rs; discriminate E. Qed.
Lemma longer {T} (a b : list T) x : a <> a ++ x :: b.
Proof. intros E. apply (f_equal (@length T)) in E. rewrite app_length in E. cbn [length] in E. lia. Qed.
Lemma io_replicate_left w os out r x : fits ev (c_opts (w_client w)) -> w_log w = [] -> io_replicate bl ev st (Sock w os out) = (r, x) ->
  left_client bl ev st (w_client w) (received (w_log (k_world x))) (w_client (k_world x)).
Proof.
  intros F LW E. destruct (replicate bl ev st w) as [r0 w0] eqn:E0. pose proof (replicate_left bl ev st HB HH NF RS w r0 w0 F LW E0) as WHOLE.
  destruct (tr_replicate bl ev st HB HH NF RS (w_client w) F) as (_ & GA & _). destruct (GA w eq_refl) as (la & La & NA & _). rewrite E0, LW in La. cbn [snd app] in La. subst la.
  destruct (sim_replicate bl ev st w) as (ls & Ls & SR). rewrite E0, LW in Ls. cbn [snd app] in Ls. subst ls. specialize (SR os out). rewrite E in SR. unfold done in SR. rewrite E0 in SR. cbn [fst snd] in SR.
  destruct SR as [(-> & -> & _)|CUT]; [exact WHOLE|]. clear WHOLE.
  assert (NX : numb (received (w_log (k_world x)))).
  { destruct CUT as (l1 & p & s & l2 & ? & ? & ? & ? & EL & KL & _). rewrite LW in KL. cbn [app] in KL. rewrite KL. rewrite EL, received_app in NA. apply numb_app in NA. apply NA. }
  assert (SHORT : w_log (k_world x) <> w_log w0).
  { destruct CUT as (l1 & p & s & l2 & ? & ? & ? & ? & EL & KL & _). rewrite LW in KL. cbn [app] in KL. rewrite KL, EL. apply longer. }
  clear CUT. destruct (tr_connect bl ev st HH NF RS (w_client w)) as (_ & G & _). destruct (G w eq_refl) as (lc & Lc & Nc & H1 & _ & H3). rewrite LW in Lc. cbn [app] in Lc. pose proof (connect_keeps bl ev st w) as K1.
  destruct (sim_connect bl ev st w) as (ls & Ls' & SC). rewrite LW in Ls'. cbn [app] in Ls'. assert (EQL : ls = lc) by congruence. rewrite EQL in SC. clear ls Ls' EQL. specialize (SC os out).
  pose proof (ik_connect bl ev st (Sock w os out)) as IK. rewrite replicate_eq in E0. unfold io_replicate in E. unfold io_bind at 1 in E. destruct (io_connect bl ev st (Sock w os out)) as [rc xc] eqn:EC. cbn [snd k_world] in IK.
  destruct SC as [(RC & KW & _)|(m1 & q & n & m2 & ? & ? & ? & ? & EM & KM & _ & _ & BC & _)].
  2: { (* a write failed during the login *)
    assert (x = xc) by (destruct BC as [[-> _]|[-> _]]; congruence). subst xc. right. split; [|exact IK]. rewrite LW in KM. cbn [app] in KM. intros login pr more EQ L.
    assert (EQ2 : received lc = login ++ more ++ received m2) by (rewrite EM, received_app; change (received (Sent q n :: m2)) with (received m2); rewrite <- KM, EQ; now rewrite <- app_assoc).
    pose proof (H3 _ _ _ _ EQ2 (conj eq_refl L)) as Z. apply app_eq_nil in Z. destruct Z as [-> Z]. rewrite Z, !app_nil_r in EQ2. rewrite <- EQ2 in L.
    destruct (proj2 (H1 pr (w_client w)) (conj eq_refl L)) as [OK _]. destruct (connect bl ev st w) as [rr ww] eqn:ECw. cbn [fst snd] in *. subst rr. destruct (an_connect bl ev st w pr ww ECw) as (l' & (k & p' & s' & ->) & L').
    rewrite LW in L'. cbn [app] in L'. assert (EN : m1 ++ Sent q n :: m2 = k ++ [Received p' s']) by congruence. now apply received_end in EN. }
  destruct xc as [wc osc outc]. cbn [k_world] in *. unfold abind at 1 in E0. destruct (connect bl ev st w) as [rr wc'] eqn:ECw. cbn [fst snd] in *. subst rr wc'.
  destruct rc as [pr|e| |].
  2,3,4: exfalso; apply SHORT; assert (w0 = wc) by congruence; assert (XK : k_world x = wc) by (assert (x = Sock wc osc outc) by congruence; subst x; reflexivity); congruence.
  assert (LO : login_ok bl ev st (received lc) pr) by exact (proj2 (proj1 (H1 pr (w_client wc)) (conj eq_refl eq_refl))).
  unfold set_up in E0. unfold abind at 1, a_client in E0. unfold abind at 1, a_set_client in E0. unfold io_bind at 1, io_client, io_of, a_client in E. cbn [k_world k_os k_out] in E. unfold io_bind at 1, io_set_client, io_of, a_set_client in E. cbn [k_world k_os k_out] in E.
  rewrite K1 in E0, E. unfold client_reset in E0, E. set (o := c_opts (w_client w)) in *. set (w2 := World (Client o false None None) (w_in wc) (w_log wc)) in *.
  destruct (adjust_left o false None None w2 eq_refl) as (l2 & o' & L2 & C2 & SL). cbn [w2 w_log] in L2. change (w_log w2) with (w_log wc) in L2.
  destruct (sim_adjust w2) as (ls & Ls' & SA). assert (EQL : ls = l2) by (apply (app_inv_head (w_log wc)); rewrite <- L2; symmetry; exact Ls'). rewrite EQL in SA. clear ls Ls' EQL. specialize (SA osc outc).
  left. exists (received lc), pr. unfold io_bind at 1 in E. unfold abind at 1 in E0. destruct (io_adjust_starting_position (Sock w2 osc outc)) as [ra xa] eqn:EA.
  destruct SA as [(RA & KA & _)|(m1 & q & n & m2 & ? & ? & ? & ? & EM & KM & _ & _ & BA & _)].
  2: { (* the status could not be asked for *)
    assert (x = xa) by (destruct BA as [[-> _]|[-> _]]; congruence). subst xa. assert (Z : w_client (k_world x) = Client o false None None /\ w_log (k_world x) = w_log wc).
    { unfold io_adjust_starting_position in EA. unfold io_bind at 1, io_client, io_of, a_client in EA. cbn [k_world k_os k_out w2 w_client c_opts] in EA. destruct (negb _) eqn:NG; [exfalso; inv EA; destruct BA as [[Z _]|[Z _]]; discriminate Z|].
      destruct (o_file o) eqn:OF; [|exfalso; inv EA; destruct BA as [[Z _]|[Z _]]; discriminate Z]. unfold io_bind at 1 in EA. unfold io_write at 1 in EA. cbn [k_os k_out k_world] in EA.
      destruct (write_packet (query_command (tx "show master status")) 0 osc) as [[[u|e| |] bs] os'] eqn:EW; [exfalso|inv EA; split; reflexivity..].
      set (w3 := World (w_client w2) (w_in w2) (w_log w2 ++ [Sent (query_command (tx "show master status")) 0])) in *.
      assert (EA' : io_adj_rest (Client o false None None) (Sock w3 os' (outc ++ bs)) = (ra, x)) by exact EA.
      assert (WH : k_world x = snd (adj_rest (Client o false None None) w3)) by (rewrite <- (io_adj_rest_whole (Client o false None None) w3 os' (outc ++ bs)), EA'; reflexivity).
      assert (AD : adjust_starting_position w2 = adj_rest (Client o false None None) w3).
      { unfold adjust_starting_position. unfold abind at 1, a_client. cbn [w2 w_client c_opts]. rewrite NG, OF. unfold abind at 1. rewrite a_write_ok by reflexivity. reflexivity. }
      rewrite AD, <- WH in L2. change (w_log w2) with (w_log wc) in KM. rewrite L2 in KM. apply app_inv_head in KM. rewrite EM in KM. now apply (longer m1 m2 (Sent q n)). }
    destruct Z as [Z1 Z2]. rewrite Z1, Z2, Lc. exists [], o. split; [now rewrite app_nil_r|]. split; [exact LO|]. split; [|reflexivity].
    eapply told_status; [exact HH|exact NF|exact RS| |symmetry; apply app_nil_r|exact LO|]; [rewrite <- Lc; now rewrite <- Z2|]. right. split; [|reflexivity]. intros rs mo file cells EQ _ R. destruct rs; [|discriminate EQ]. exact (no_rows _ _ R). }
  unfold done in *. destruct (adjust_starting_position w2) as [ra' wa] eqn:EAw. cbn [fst snd] in *. subst ra'. destruct ra as [[]|e| |].
  2,3,4: exfalso; apply SHORT; assert (w0 = wa) by congruence; assert (x = xa) by congruence; congruence.
  destruct xa as [wa' osa outa]. cbn [k_world] in KA. subst wa'. change (set_up_rest bl ev st pr wa = (r0, w0)) in E0. change (io_rest bl ev st pr (Sock wa osa outa) = (r, x)) in E.
  destruct (sim_rest bl ev st pr wa) as (lr & Lr & SR). rewrite E0 in Lr. cbn [snd] in Lr. specialize (SR osa outa). pose proof (ik_rest bl ev st pr (Sock wa osa outa)) as IR. rewrite E in SR, IR. cbn [snd k_world] in IR.
  destruct SR as [(_ & KW & _)|(m1 & q & n & m2 & ? & ? & ? & ? & EM & KM & _)]; [exfalso; apply SHORT; rewrite KW, E0; reflexivity|].
  rewrite KM, L2, Lc, !received_app, <- app_assoc in *. exists (received l2 ++ received m1), o'. split; [reflexivity|]. split; [exact LO|]. split; [|congruence].
  eapply told_status; [exact HH|exact NF|exact RS|exact NX|reflexivity|exact LO|]. apply SL; [|auto]. apply numb_app in NX. apply NX.
Qed.
End Left.
