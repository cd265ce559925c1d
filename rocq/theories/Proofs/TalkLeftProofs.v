(* What replicate() leaves in the client, from the packets received. *)
From Coq Require Import Strings.String.
From Verif Require Import Base.Tac Base.Bytes Base.Text Base.Res Base.Str Base.Parse Model.Codec Model.Gtid Model.GtidMaria Model.Events Model.Client Model.Commands
  Model.Responses Model.Channel Model.Session Spec.CodecSpec Spec.CommandSpec Spec.ChannelSpec Spec.SessionSpec Spec.PanicSpec Spec.GtidTextSpec Spec.TalkSpec
  Proofs.CommandProofs Proofs.ChannelProofs Proofs.ReplicateProofs Proofs.PlanProofs Proofs.LoginProofs Proofs.GtidTextProofs Proofs.PanicProofs
  Proofs.TalkProofs Proofs.TalkPacketProofs Proofs.TalkLoginProofs Proofs.TalkSetupProofs Spec.TalkSpec.
Local Open Scope N_scope.

Lemma apart_same {A} (O : oks A) X : apart O X -> forall c1 a1 p1 q1 c2 a2 p2 q2, numb (p1 ++ q1) -> p1 ++ q1 = p2 ++ q2 -> O c1 a1 p1 -> O c2 a2 p2 -> p1 = p2 /\ q1 = q2 /\ a1 = a2.
Proof.
  intros [A1 _] c1 a1 p1 q1 c2 a2 p2 q2 N E H1 H2. destruct (app_either _ _ _ _ E) as (x & [[-> Ex]|[-> Ex]]).
  - rewrite E in N. apply numb_app in N. destruct N as [N _]. destruct (A1 _ _ _ _ _ _ N H1 H2) as (-> & _ & ->). rewrite app_nil_r. subst q1. auto.
  - apply numb_app in N. destruct N as [N _]. destruct (A1 _ _ _ _ _ _ N H2 H1) as (-> & _ & ->). rewrite app_nil_r. subst q2. auto.
Qed.
Section Left.
Context (bl : build) (ev : env) (st : settings).
Context (HB : s_heartbeat st < 2 ^ 100) (HH : hashes ev) (NF : names_fit st).
Context (RS : forall k m, rsa (e_crypto ev) k m <> Panic /\ forall e, rsa (e_crypto ev) k m = Ok e -> N.of_nat (length e) < 16777216).
Definition status_left (o : options) (ps : list packet) (o' : options) : Prop :=
  (exists rs more file cells pos, ps = rs ++ more /\ at_end o /\ rows_are rs [file :: cells] /\ new_pos o cells pos /\ o' = Options file pos (o_set o) (o_list o) (o_strategy o)) \/
  ((forall rs more file cells, ps = rs ++ more -> at_end o -> ~ rows_are rs [file :: cells]) /\ o' = o).
(* the position: what is received is the status, or no part of it is *)
Lemma adjust_left o t m y w : w_client w = Client o t m y ->
  exists l o', w_log (snd (adjust_starting_position w)) = w_log w ++ l /\ w_client (snd (adjust_starting_position w)) = Client o' t m y /\
    forall more, numb (received l ++ more) -> (fst (adjust_starting_position w) = Ok tt \/ more = []) -> status_left o (received l ++ more) o'.
Proof.
  intros W. destruct (asks_end o) eqn:AE.
  2: { destruct (adjust_starting_position w) as [r w'] eqn:E. destruct (adjust_none w r w') as [-> ->]; [now rewrite W|exact E|]. exists [], o. cbn [snd]. rewrite app_nil_r. split; [reflexivity|]. split; [exact W|].
    intros more _ _. right. split; [|reflexivity]. intros rs mo file cells _ Z. apply at_end_dec in Z. congruence. }
  pose proof (proj1 (at_end_dec o) AE) as FE. destruct FE as [FE1 FE2].
  assert (EQ : adjust_starting_position w = (rows <== read_result_set ;;
    match rows with
    | [row] =>
      match row with
      | [] => alift Panic
      | file :: r =>
        _ <== a_set_client (Client (with_coords o file (o_pos o)) t m y) ;;
        match r with
        | [] => alift Panic
        | p :: _ => pos <== alift (parse_uint u32max1 p) ;; a_set_client (Client (with_coords o file pos) t m y)
        end
      end
    | _ => alift (Err (EString no_position))
    end) (World (w_client w) (w_in w) (w_log w ++ [Sent (query_command (tx "show master status")) 0]))).
  { unfold adjust_starting_position, abind at 1, a_client. rewrite W. cbn [c_opts c_txn c_maria c_mysql]. rewrite FE1, FE2. cbn [strategy_eqb negb]. unfold abind at 1. rewrite a_write_ok by reflexivity. rewrite W. reflexivity. }
  rewrite EQ. clear EQ. set (w1 := World (w_client w) (w_in w) (w_log w ++ [Sent (query_command (tx "show master status")) 0])). assert (W1 : w_client w1 = Client o t m y) by exact W.
  destruct (tr_result (Client o t m y)) as (AP & G & _). destruct (G w1 W1) as (l & L & N & H1 & _ & H3). pose proof (kp_result_set w1) as KP.
  assert (NONE : forall more, numb (received l ++ more) -> (more = [] \/ exists rows, fst (read_result_set w1) = Ok rows) -> (forall rows, fst (read_result_set w1) = Ok rows -> forall file cells, rows <> [file :: cells]) -> status_left o (received l ++ more) o).
  { intros more NM CASE NR. right. split; [|reflexivity]. intros rs mo file cells E _ R. destruct CASE as [ ->|(rows & RO)].
    - rewrite app_nil_r in E. pose proof (H3 _ _ _ _ E (conj eq_refl R)) as ->. rewrite app_nil_r in E. subst rs. destruct (proj2 (H1 [file :: cells] (Client o t m y)) (conj eq_refl R)) as [Z _]. now apply (NR _ Z file cells).
    - pose proof (proj1 (H1 rows _) (conj RO eq_refl)) as [_ R2]. destruct (apart_same _ _ AP (Client o t m y) rows (received l) more (Client o t m y) [file :: cells] rs mo NM E (conj eq_refl R2) (conj eq_refl R)) as (_ & _ & EQ).
      apply (NR _ RO file cells EQ). }
  assert (LG : forall r, received (Sent (query_command (tx "show master status")) 0 :: r) = received r) by reflexivity.
  assert (LA : forall x, w_log w1 ++ x = w_log w ++ Sent (query_command (tx "show master status")) 0 :: x) by (intros x; cbn [w1 w_log]; now rewrite <- app_assoc).
  exists (Sent (query_command (tx "show master status")) 0 :: l). rewrite LG. match goal with |- context [abind read_result_set ?K w1] => set (k := K) end. unfold abind. destruct (read_result_set w1) as [[rows|e| |] w2] eqn:E; cbn [fst snd] in *.
  2,3,4: exists o; split; [rewrite L; apply LA|]; split; [congruence|]; intros more NM [Z| ->]; [discriminate Z|]; apply NONE; [exact NM|auto|discriminate].
  destruct rows as [|[|file cells] [|row2 rows]]; cbn [k fst snd alift].
  1,2,3,5: exists o; (split; [rewrite L; apply LA|]; split; [congruence|]; intros more NM CASE; apply NONE; [exact NM|right; eauto|intros rows' Z f0 c0; injection Z as <-; discriminate]).
  assert (R : rows_are (received l) [file :: cells]) by exact (proj2 (proj1 (H1 [file :: cells] _) (conj eq_refl eq_refl))).
  unfold abind, a_set_client, alift. destruct cells as [|ptext cells].
  - exists (Options file (o_pos o) (o_set o) (o_list o) (o_strategy o)). cbn [alift fst snd w_log w_client]. split; [rewrite L; apply LA|]. split; [reflexivity|]. intros more NM _. left. exists (received l), more, file, [], (o_pos o).
    split; [reflexivity|]. split; [now split|]. split; [exact R|]. split; [|reflexivity]. right. split; [discriminate|reflexivity].
  - change u32max1 with (2 ^ 32). destruct (parse_uint (2 ^ 32) ptext) as [pos|e| |] eqn:PU.
    + exists (Options file pos (o_set o) (o_list o) (o_strategy o)). cbn [a_set_client fst snd w_log w_client]. split; [rewrite L; apply LA|]. split; [reflexivity|]. intros more NM _. left. exists (received l), more, file, (ptext :: cells), pos.
      split; [reflexivity|]. split; [now split|]. split; [exact R|]. split; [|reflexivity]. left. exists ptext, cells. split; [reflexivity|]. now apply number_parse.
    + exists (Options file (o_pos o) (o_set o) (o_list o) (o_strategy o)). cbn [fst snd w_log w_client]. split; [rewrite L; apply LA|]. split; [reflexivity|]. intros more NM _. left. exists (received l), more, file, (ptext :: cells), (o_pos o).
      split; [reflexivity|]. split; [now split|]. split; [exact R|]. split; [|reflexivity]. right. split; [|reflexivity]. intros p r n EQ NU. injection EQ as <- <-. apply number_parse in NU. congruence.
    + exfalso. pose proof (parse_uint_returns (2 ^ 32) ptext) as K. rewrite PU in K. destruct K.
    + exfalso. pose proof (parse_uint_returns (2 ^ 32) ptext) as K. rewrite PU in K. destruct K.
Qed.
Lemma told_status o ps login pr more o' : numb ps -> ps = login ++ more -> login_ok bl ev st login pr -> status_left o more o' -> left_options bl ev st o ps o'.
Proof.
  intros N E L [(rs & mo & file & cells & pos & -> & AE & R & NP & ->)|[NT ->]].
  - left. exists file, cells, pos. split; [|auto]. exists login, pr, rs, mo. auto.
  - right. split; [|reflexivity]. intros file cells (lo2 & pr2 & rs & mo & E2 & L2 & AE & R). destruct (tr_connect bl ev st HH NF RS (client_new o)) as (AP & _).
    rewrite E in N, E2. destruct (apart_same _ _ AP (client_new o) pr login more (client_new o) pr2 lo2 (rs ++ mo) N E2 (conj eq_refl L) (conj eq_refl L2)) as (_ & -> & _). exact (NT rs mo file cells eq_refl AE R).
Qed.
Lemma told_one o ps f1 c1 f2 c2 : numb ps -> told bl ev st o ps f1 c1 -> told bl ev st o ps f2 c2 -> f1 = f2 /\ c1 = c2.
Proof.
  intros N (g1 & p1 & r1 & m1 & E1 & L1 & _ & R1) (g2 & p2 & r2 & m2 & E2 & L2 & _ & R2). destruct (tr_connect bl ev st HH NF RS (client_new o)) as (AP & _). rewrite E1 in N, E2.
  destruct (apart_same _ _ AP (client_new o) p1 g1 (r1 ++ m1) (client_new o) p2 g2 (r2 ++ m2) N E2 (conj eq_refl L1) (conj eq_refl L2)) as (_ & E & _).
  destruct (tr_result (client_new o)) as (AR & _). apply numb_app in N. destruct (apart_same _ _ AR (client_new o) _ r1 m1 (client_new o) _ r2 m2 (proj2 N) E (conj eq_refl R1) (conj eq_refl R2)) as (_ & _ & EQ). now injection EQ.
Qed.
Lemma replicate_left w r w' : fits ev (c_opts (w_client w)) -> w_log w = [] -> replicate bl ev st w = (r, w') -> left_client bl ev st (w_client w) (received (w_log w')) (w_client w').
Proof.
  intros F LW E. destruct (tr_replicate bl ev st HB HH NF RS (w_client w) F) as (_ & GA & _). destruct (GA w eq_refl) as (la & La & NA & _). rewrite E in La. cbn [snd] in La. rewrite LW in La. cbn [app] in La. subst la.
  destruct (tr_connect bl ev st HH NF RS (w_client w)) as (AP & G & _). destruct (G w eq_refl) as (l1 & L1 & N1 & H1 & _ & H3). rewrite LW in L1. cbn [app] in L1. pose proof (connect_keeps bl ev st w) as K1.
  rewrite replicate_eq in E. unfold abind in E. destruct (connect bl ev st w) as [[pr|e| |] w1] eqn:E1; cbn [fst snd] in *.
  2,3,4: assert (w' = w1) by congruence; subst w'; right; split; [|exact K1]; intros login pr more EQ L; rewrite L1 in EQ; pose proof (H3 _ _ _ _ EQ (conj eq_refl L)) as ->; rewrite app_nil_r in EQ;
    rewrite <- EQ in L; destruct (proj2 (H1 pr (w_client w)) (conj eq_refl L)) as [Z _]; discriminate Z.
  assert (LO : login_ok bl ev st (received l1) pr) by exact (proj2 (proj1 (H1 pr (w_client w1)) (conj eq_refl eq_refl))).
  unfold set_up in E. unfold abind at 1, a_client in E. unfold abind at 1, a_set_client in E. rewrite K1 in E. unfold client_reset in E. set (o := c_opts (w_client w)) in *.
  set (w2 := World (Client o false None None) (w_in w1) (w_log w1)) in *. destruct (adjust_left o false None None w2 eq_refl) as (l2 & o' & L2 & C2 & SL). cbn [w2 w_log] in L2.
  unfold abind at 1 in E. pose proof (kp_rest bl ev st pr) as KR. pose proof (gr_rest bl ev st pr) as GR. left. exists (received l1), pr.
  destruct (adjust_starting_position w2) as [[[]|e| |] w3] eqn:E3; cbn [fst snd] in *.
  - specialize (KR w3). specialize (GR w3). unfold set_up_rest in KR, GR. rewrite E in KR, GR. cbn [snd] in KR, GR. destruct GR as (l3 & L3). rewrite L3, L2, L1, !received_app in *. rewrite <- app_assoc in *.
    exists (received l2 ++ received l3), o'. split; [reflexivity|]. split; [exact LO|]. split; [|congruence]. eapply told_status; [exact NA|reflexivity|exact LO|]. apply SL; [|auto]. apply numb_app in NA. apply NA.
  - assert (w' = w3) by congruence. subst w'. rewrite L2, L1, received_app in *. exists (received l2), o'. split; [reflexivity|]. split; [exact LO|]. split; [|exact C2]. eapply told_status; [exact NA|reflexivity|exact LO|].
    rewrite <- (app_nil_r (received l2)). apply SL; [|auto]. rewrite app_nil_r. apply numb_app in NA. apply NA.
  - assert (w' = w3) by congruence. subst w'. rewrite L2, L1, received_app in *. exists (received l2), o'. split; [reflexivity|]. split; [exact LO|]. split; [|exact C2]. eapply told_status; [exact NA|reflexivity|exact LO|].
    rewrite <- (app_nil_r (received l2)). apply SL; [|auto]. rewrite app_nil_r. apply numb_app in NA. apply NA.
  - assert (w' = w3) by congruence. subst w'. rewrite L2, L1, received_app in *. exists (received l2), o'. split; [reflexivity|]. split; [exact LO|]. split; [|exact C2]. eapply told_status; [exact NA|reflexivity|exact LO|].
    rewrite <- (app_nil_r (received l2)). apply SL; [|auto]. rewrite app_nil_r. apply numb_app in NA. apply NA.
Qed.
End Left.
Lemma number_one m t a b : number m t a -> number m t b -> a = b.
Proof. rewrite !number_parse. congruence. Qed.
Lemma new_pos_one o cells a b : new_pos o cells a -> new_pos o cells b -> a = b.
Proof.
  intros [(p & r & -> & N)|(N & ->)] [(p2 & r2 & E & N2)|(N2 & ->)].
  - injection E as <- <-. now apply (number_one (2 ^ 32) p).
  - exfalso. now apply (N2 p r a eq_refl).
  - exfalso. now apply (N p2 r2 b E).
  - reflexivity.
Qed.
