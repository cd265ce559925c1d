(* Exactly which packets lead replicate() to an event stream, and which to a panic: the steps put together. *)
From Coq Require Import Sorting.Permutation Strings.String.
From Verif Require Import Base.Tac Base.Bytes Base.Text Base.Res Base.Str Base.Parse Model.Codec Model.Gtid Model.GtidMaria Model.Events Model.Client Model.Commands
  Model.Responses Model.Channel Model.Session Spec.GtidSpec Spec.CodecSpec Spec.CommandSpec Spec.ChannelSpec Spec.SessionSpec Spec.PanicSpec Spec.GtidTextSpec Spec.TalkSpec
  Proofs.CodecProofs Proofs.EventSafe Proofs.CommandProofs Proofs.ChannelProofs Proofs.ReplicateProofs Proofs.PlanProofs Proofs.LoginProofs Proofs.PanicProofs.
Local Open Scope N_scope.

Definition numb (ps : list packet) : Prop := Forall packet_ok ps.
Lemma numb_app a b : numb (a ++ b) <-> numb a /\ numb b.
Proof. unfold numb. apply Forall_app. Qed.
Lemma received_app a b : received (a ++ b) = received a ++ received b.
Proof. unfold received. apply flat_map_app. Qed.

(* [O c' a ps]: the packets ps lead to the result a and the client c'; [X ps]: they lead to a panic *)
Notation oks A := (client -> A -> list packet -> Prop).
Definition apart {A} (O : oks A) (X : list packet -> Prop) : Prop :=
  (forall c1 a1 p c2 a2 q, numb (p ++ q) -> O c1 a1 p -> O c2 a2 (p ++ q) -> q = [] /\ c1 = c2 /\ a1 = a2) /\
  (forall c a p q, numb (p ++ q) -> O c a p -> X (p ++ q) -> False).
(* an empty packet makes every step panic, and is left out of X *)
Definition ends_empty (ps : list packet) : Prop := exists k s, ps = k ++ [([], s)].
Definition goes {A} (m : act A) (w : world) (O : oks A) (X : list packet -> Prop) : Prop :=
  exists l, w_log (snd (m w)) = w_log w ++ l /\ numb (received l) /\
    (forall a c', (fst (m w) = Ok a /\ w_client (snd (m w)) = c') <-> O c' a (received l)) /\
    ((fst (m w) = Panic -> X (received l) \/ ends_empty (received l)) /\ (X (received l) -> fst (m w) = Panic)) /\
    (forall c' a p q, received l = p ++ q -> O c' a p -> q = []).
(* when these packets are there to be read, they are read, and nothing else *)
Definition ready {A} (m : act A) (w : world) (O : oks A) (X : list packet -> Prop) : Prop :=
  forall ps qs t rest, pending (w_in w) (ps ++ qs) t rest -> fst (m w) <> Diverge ->
    (forall c' a, O c' a ps -> fst (m w) = Ok a /\ w_client (snd (m w)) = c' /\ (exists l, w_log (snd (m w)) = w_log w ++ l /\ received l = ps) /\ pending (w_in (snd (m w))) qs t rest) /\
    (X ps -> fst (m w) = Panic /\ exists l, w_log (snd (m w)) = w_log w ++ l /\ received l = ps).
Definition tr {A} (c : client) (m : act A) (O : oks A) (X : list packet -> Prop) : Prop :=
  apart O X /\ (forall w, w_client w = c -> goes m w O X) /\ forall w, w_client w = c -> ready m w O X.
Lemma pending_numb cs ps qs t rest : pending cs (ps ++ qs) t rest -> numb ps.
Proof. intros (c & _ & _ & _ & F). now apply numb_app in F. Qed.

Lemma tr_conv {A} c (m : act A) O X (O' : oks A) (X' : list packet -> Prop) : tr c m O X -> (forall c' a ps, numb ps -> O c' a ps <-> O' c' a ps) -> (forall ps, numb ps -> X ps <-> X' ps) -> tr c m O' X'.
Proof.
  intros [[A1 A2] [G R]] HO HX. split; [split|split].
  - intros c1 a1 p c2 a2 q N H1 H2. pose proof N as N'. apply numb_app in N'. apply (A1 c1 a1 p c2 a2 q N); apply HO; tauto.
  - intros c1 a1 p q N H1 H2. pose proof N as N'. apply numb_app in N'. apply (A2 c1 a1 p q N); [apply HO|apply HX]; tauto.
  - intros w W. destruct (G w W) as (l & L & N & H1 & H2 & H3). exists l. split; [exact L|]. split; [exact N|]. split; [|split].
    + intros a c'. rewrite <- HO by exact N. apply H1.
    + destruct H2 as [H2 H2']. split; [intros Y; destruct (H2 Y) as [Z|Z]; [left; now apply HX|now right]|intros Y; apply H2', HX; assumption].
    + intros c' a p q E H. pose proof N as N'. rewrite E in N'. apply numb_app in N'. apply (H3 c' a p q E). apply HO; tauto.
  - intros w W ps qs t rest P D. pose proof (pending_numb _ _ _ _ _ P) as N. destruct (R w W ps qs t rest P D) as [R1 R2]. split; [intros c' a H; apply R1; now apply HO|intros H; apply R2; now apply HX].
Qed.
Lemma tr_eq {A} c (m m' : act A) O X : (forall w, w_client w = c -> m w = m' w) -> tr c m' O X -> tr c m O X.
Proof. intros E (H1 & H2 & H3). split; [exact H1|]. split; intros w W; unfold goes, ready; rewrite (E w W); [exact (H2 w W)|exact (H3 w W)]. Qed.
Lemma app_either {T} (a b c d : list T) : a ++ b = c ++ d -> exists q, (c = a ++ q /\ b = q ++ d) \/ (a = c ++ q /\ d = q ++ b).
Proof.
  revert c. induction a as [|x a IH]; intros c E; [exists c; left; auto|]. destruct c as [|y c]; [exists (x :: a); right; cbn [app] in *; auto|].
  cbn [app] in E. injection E as <- E. destruct (IH c E) as (q & [[H1 H2]|[H1 H2]]); exists q; [left|right]; subst; auto.
Qed.
Lemma tr_bind {A B} c (m : act A) (f : A -> act B) O X (Of : client -> A -> oks B) (Xf : client -> A -> list packet -> Prop) :
  tr c m O X -> (forall c1 a p, numb p -> O c1 a p -> tr c1 (f a) (Of c1 a) (Xf c1 a)) ->
  tr c (abind m f) (fun c' b ps => exists c1 a p q, ps = p ++ q /\ O c1 a p /\ Of c1 a c' b q) (fun ps => X ps \/ exists c1 a p q, ps = p ++ q /\ O c1 a p /\ Xf c1 a q).
Proof.
  intros [[A1 A2] [G R]] F. split; [split|split].
  - intros c1 b1 p c2 b2 q N (d1 & a1 & p1 & q1 & -> & H1 & K1) (d2 & a2 & p2 & q2 & E2 & H2 & K2). rewrite <- app_assoc in *.
    assert (S : p1 = p2 /\ d1 = d2 /\ a1 = a2 /\ q1 ++ q = q2).
    { destruct (app_either _ _ _ _ E2) as (x & [[-> E]|[-> E]]).
      - rewrite E2 in N. apply numb_app in N. destruct N as [N _]. destruct (A1 _ _ _ _ _ _ N H1 H2) as (-> & -> & ->). rewrite app_nil_r. auto.
      - apply numb_app in N. destruct N as [N _]. destruct (A1 _ _ _ _ _ _ N H2 H1) as (-> & -> & ->). rewrite app_nil_r. auto. }
    destruct S as (-> & -> & -> & <-). apply numb_app in N. destruct N as [N1 N]. destruct (F _ _ _ N1 H1) as [[F1 _] _]. apply (F1 _ _ _ _ _ _ N K1 K2).
  - intros c1 b1 p q N (d1 & a1 & p1 & q1 & -> & H1 & K1). rewrite <- app_assoc in *. intros [Y|(d2 & a2 & p2 & q2 & E2 & H2 & K2)]; [exact (A2 _ _ _ _ N H1 Y)|].
    assert (S : p1 = p2 /\ d1 = d2 /\ a1 = a2 /\ q1 ++ q = q2).
    { destruct (app_either _ _ _ _ E2) as (x & [[-> E]|[-> E]]).
      - rewrite E2 in N. apply numb_app in N. destruct N as [N _]. destruct (A1 _ _ _ _ _ _ N H1 H2) as (-> & -> & ->). rewrite app_nil_r. auto.
      - apply numb_app in N. destruct N as [N _]. destruct (A1 _ _ _ _ _ _ N H2 H1) as (-> & -> & ->). rewrite app_nil_r. auto. }
    destruct S as (-> & -> & -> & <-). apply numb_app in N. destruct N as [N1 N]. destruct (F _ _ _ N1 H1) as [[_ F2] _]. exact (F2 _ _ _ _ N K1 K2).
  - intros w W. destruct (G w W) as (l & L & N & H1 & H2 & H3). unfold goes, abind.
    destruct (m w) as [[a|e| |] w1] eqn:E; cbn [fst snd] in *.
    2,3,4: exists l; split; [exact L|]; split; [exact N|]; split; [|split].
    + pose proof (proj1 (H1 a (w_client w1)) (conj eq_refl eq_refl)) as HA. destruct (F _ _ _ N HA) as (_ & FG & _). destruct (FG w1 eq_refl) as (l2 & L2 & N2 & K1 & K2 & K3).
      assert (S : forall c2 a2 p q, received (l ++ l2) = p ++ q -> O c2 a2 p -> p = received l /\ q = received l2 /\ c2 = w_client w1 /\ a2 = a).
      { intros c2 a2 p q Eq H. rewrite received_app in Eq. destruct (app_either _ _ _ _ Eq) as (x & [[-> Ex]|[Ey Ex]]).
        - rewrite Ex in N2. apply numb_app in N2. destruct N2 as [N2 _]. destruct (A1 _ _ _ _ _ _ (proj2 (numb_app _ _) (conj N N2)) HA H) as (-> & -> & ->). rewrite app_nil_r in *. cbn [app] in Ex. auto.
        - pose proof (H3 _ _ _ _ Ey H) as ->. rewrite app_nil_r in Ey. cbn [app] in Ex. subst p q. destruct (proj2 (H1 a2 c2) H) as [Z1 Z2]. repeat split; congruence. }
      exists (l ++ l2). split; [now rewrite L2, L, app_assoc|]. split; [rewrite received_app; apply numb_app; auto|]. split; [|split].
      * intros b c'. split.
        -- intros H. apply K1 in H. exists (w_client w1), a, (received l), (received l2). rewrite received_app. auto.
        -- intros (c2 & a2 & p & q & Eq & HO & HF). destruct (S _ _ _ _ Eq HO) as (-> & -> & -> & ->). now apply K1.
      * split.
        -- intros H. destruct (proj1 K2 H) as [Z|(k & s & Z)]; [left; right; exists (w_client w1), a, (received l), (received l2); rewrite received_app; auto|].
           right. exists (received l ++ k), s. now rewrite received_app, Z, app_assoc.
        -- intros [Y|(c2 & a2 & p & q & Eq & HO & HF)].
           ++ exfalso. rewrite received_app in Y. apply (A2 _ _ _ _ (proj2 (numb_app _ _) (conj N N2)) HA Y).
           ++ destruct (S _ _ _ _ Eq HO) as (-> & -> & -> & ->). now apply K2.
      * intros c' b p q Eq (c2 & a2 & p1 & p2 & -> & HO & HF). rewrite <- app_assoc in Eq. destruct (S _ _ _ _ Eq HO) as (-> & Eq2 & -> & ->). exact (K3 _ _ _ _ (eq_sym Eq2) HF).
    + intros b c'. split; [intros [Z _]; discriminate Z|]. intros (c2 & a2 & p & q & Eq & HO & HF). pose proof (H3 _ _ _ _ Eq HO) as ->. rewrite app_nil_r in Eq. subst p.
      destruct (proj2 (H1 a2 c2) HO) as [Z1 _]. discriminate Z1.
    + split; [discriminate|]. intros [Y|(c2 & a2 & p & q & Eq & HO & HF)]; [apply H2 in Y; discriminate Y|]. pose proof (H3 _ _ _ _ Eq HO) as ->. rewrite app_nil_r in Eq. subst p.
      destruct (proj2 (H1 a2 c2) HO) as [Z1 _]. discriminate Z1.
    + intros c' b p q Eq (c2 & a2 & p1 & p2 & -> & HO & HF). rewrite <- app_assoc in Eq. pose proof (H3 _ _ _ _ Eq HO) as Z. now apply app_eq_nil in Z.
    + intros b c'. split; [intros [Z _]; discriminate Z|]. intros (c2 & a2 & p & q & Eq & HO & HF). pose proof (H3 _ _ _ _ Eq HO) as ->. rewrite app_nil_r in Eq. subst p.
      destruct (proj2 (H1 a2 c2) HO) as [Z1 _]. discriminate Z1.
    + split; [intros _; destruct (proj1 H2 eq_refl) as [Z|Z]; [left; left; exact Z|right; exact Z]|reflexivity].
    + intros c' b p q Eq (c2 & a2 & p1 & p2 & -> & HO & HF). rewrite <- app_assoc in Eq. pose proof (H3 _ _ _ _ Eq HO) as Z. now apply app_eq_nil in Z.
    + intros b c'. split; [intros [Z _]; discriminate Z|]. intros (c2 & a2 & p & q & Eq & HO & HF). pose proof (H3 _ _ _ _ Eq HO) as ->. rewrite app_nil_r in Eq. subst p.
      destruct (proj2 (H1 a2 c2) HO) as [Z1 _]. discriminate Z1.
    + split; [discriminate|]. intros [Y|(c2 & a2 & p & q & Eq & HO & HF)]; [apply H2 in Y; discriminate Y|]. pose proof (H3 _ _ _ _ Eq HO) as ->. rewrite app_nil_r in Eq. subst p.
      destruct (proj2 (H1 a2 c2) HO) as [Z1 _]. discriminate Z1.
    + intros c' b p q Eq (c2 & a2 & p1 & p2 & -> & HO & HF). rewrite <- app_assoc in Eq. pose proof (H3 _ _ _ _ Eq HO) as Z. now apply app_eq_nil in Z.
  - intros w W ps qs t rest P D. assert (D1 : fst (m w) <> Diverge) by (intros Z; apply D; unfold abind; destruct (m w) as [r w1]; cbn [fst] in Z; now subst r).
    assert (FW : forall c1 a p q, ps = p ++ q -> O c1 a p -> exists w1 l, m w = (Ok a, w1) /\ w_client w1 = c1 /\ w_log w1 = w_log w ++ l /\ received l = p /\ ready (f a) w1 (Of c1 a) (Xf c1 a) /\ pending (w_in w1) (q ++ qs) t rest /\ fst (f a w1) <> Diverge).
    { intros c1 a p q -> H. rewrite <- app_assoc in P. pose proof (pending_numb _ _ _ _ _ P) as N. destruct (proj1 (R w W p _ t rest P D1) _ _ H) as (E1 & E2 & (l & E3 & E4) & E5).
      destruct (m w) as [r w1] eqn:E. cbn [fst snd] in *. subst r. exists w1, l. split; [reflexivity|]. split; [exact E2|]. split; [exact E3|]. split; [exact E4|]. split; [|split; [exact E5|]].
      - destruct (F _ _ _ N H) as (_ & _ & FR). exact (FR w1 E2).
      - intros Z. apply D. unfold abind. now rewrite E. }
    split.
    + intros c' b (c1 & a & p & q & E & H & K). destruct (FW _ _ _ _ E H) as (w1 & l & E1 & E2 & E3 & E4 & RF & P1 & D2). unfold abind. rewrite E1.
      destruct (proj1 (RF q qs t rest P1 D2) _ _ K) as (K1 & K2 & (l2 & K3 & K4) & K5). split; [exact K1|]. split; [exact K2|]. split; [|exact K5]. exists (l ++ l2). rewrite K3, E3, <- app_assoc, received_app, E4, K4. auto.
    + intros [H|(c1 & a & p & q & E & H & K)].
      * destruct (proj2 (R w W ps qs t rest P D1) H) as (E & l & L). unfold abind. destruct (m w) as [r w1]. cbn [fst snd] in *. subst r. cbn [fst snd]. eauto.
      * destruct (FW _ _ _ _ E H) as (w1 & l & E1 & E2 & E3 & E4 & RF & P1 & D2). unfold abind. rewrite E1.
        destruct (proj2 (RF q qs t rest P1 D2) K) as (K1 & l2 & K3 & K4). split; [exact K1|]. exists (l ++ l2). rewrite K3, E3, <- app_assoc, received_app, E4, K4. auto.
Qed.

(* ---- the steps ---- *)
Definition Ono {A} : oks A := fun _ _ _ => False.
Definition Xno : list packet -> Prop := fun _ => False.
Definition Oret {A} (c : client) (a : A) : oks A := fun c' b ps => c' = c /\ b = a /\ ps = [].
Definition Xnow : list packet -> Prop := fun ps => ps = [].
Lemma nil_app {T} (p q : list T) : [] = p ++ q -> q = [].
Proof. intros E. symmetry in E. now apply app_eq_nil in E. Qed.
Lemma apart_ret {A} c (a : A) : apart (Oret c a) Xno.
Proof. split; [intros c1 a1 p c2 a2 q _ (-> & -> & ->) (-> & -> & E); auto|contradiction]. Qed.
Lemma apart_no {A} X : apart (@Ono A) X.
Proof. split; intros; contradiction. Qed.
Ltac done0 := unfold goes, aret, alift, a_client, a_set_client; exists []; rewrite app_nil_r; split; [reflexivity|]; split; [constructor|]; cbn [received flat_map fst snd]; split; [|split].
Ltac ready0 := intros ps qs t rest P D; split; [intros c' b (-> & -> & ->)|contradiction]; cbn [aret alift a_client a_set_client fst snd w_client w_in w_log app] in *; split; [congruence|]; split; [congruence|]; split; [exists []; rewrite app_nil_r; auto|exact P].
Lemma tr_ret {A} c (a : A) : tr c (aret a) (Oret c a) Xno.
Proof.
  split; [apply apart_ret|]. split; [|intros w W; ready0]. intros w W. done0.
  - intros b c'. unfold Oret. split; [intros [E1 E2]; repeat split; congruence|intros (-> & -> & _); auto].
  - split; [discriminate|contradiction].
  - intros c' b p q E _. exact (nil_app _ _ E).
Qed.
Lemma tr_ok {A} c (r : res A) a : r = Ok a -> tr c (alift r) (Oret c a) Xno.
Proof. intros ->. apply tr_ret. Qed.
Lemma tr_fail {A} c e : tr c (@alift A (Err e)) Ono Xno.
Proof. split; [apply apart_no|]. split; [|intros w W ps qs t rest P D; split; contradiction]. intros w W. done0; unfold Ono, Xno; [intros; split; [intros []; discriminate|contradiction]|split; [discriminate|contradiction]|contradiction]. Qed.
Lemma tr_diverge {A} c : tr c (@alift A Diverge) Ono Xno.
Proof. split; [apply apart_no|]. split; [|intros w W ps qs t rest P D; split; contradiction]. intros w W. done0; unfold Ono, Xno; [intros; split; [intros []; discriminate|contradiction]|split; [discriminate|contradiction]|contradiction]. Qed.
Lemma tr_panic {A} c : tr c (@alift A Panic) Ono Xnow.
Proof. split; [apply apart_no|]. split; [|intros w W ps qs t rest P D; split; [contradiction|]; intros ->; split; [reflexivity|]; exists []; rewrite app_nil_r; auto]. intros w W. done0; unfold Ono, Xnow; [intros; split; [intros []; discriminate|contradiction]|split; auto|contradiction]. Qed.
Lemma tr_client c : tr c a_client (Oret c c) Xno.
Proof.
  split; [apply apart_ret|]. split; [|intros w W; ready0]. intros w W. done0.
  - intros b c'. unfold Oret. split; [intros [E1 E2]; repeat split; congruence|intros (-> & -> & _); rewrite <- W; auto].
  - split; [discriminate|contradiction].
  - intros c' b p q E _. exact (nil_app _ _ E).
Qed.
Lemma tr_set c c2 : tr c (a_set_client c2) (Oret c2 tt) Xno.
Proof.
  split; [apply apart_ret|]. split; [|intros w W; ready0]. intros w W. done0.
  - intros [] c'. unfold Oret. cbn [w_client]. split; [intros [E1 E2]; repeat split; congruence|intros (-> & _); auto].
  - split; [discriminate|contradiction].
  - intros c' b p q E _. exact (nil_app _ _ E).
Qed.
Lemma tr_write c p s : N.of_nat (length p) < 16777216 -> tr c (a_write p s) (Oret c tt) Xno.
Proof.
  intros H. split; [apply apart_ret|]. split; [|intros w W ps qs t rest P D; rewrite (a_write_ok p s w H) in *; split; [intros c' b (-> & -> & ->); cbn [fst snd w_client w_log w_in app] in *; split; [reflexivity|]; split; [exact W|]; split; [exists [Sent p s]; auto|exact P]|contradiction]]. intros w W. unfold goes. rewrite (a_write_ok p s w H). exists [Sent p s]. split; [reflexivity|]. cbn [fst snd received flat_map app w_client]. split; [constructor|]. split; [|split].
  - intros [] c'. unfold Oret. split; [intros [E1 E2]; repeat split; congruence|intros (-> & _); auto].
  - split; [discriminate|contradiction].
  - intros c' b p1 q E _. exact (nil_app _ _ E).
Qed.
Lemma tr_write_big c p s : 16777216 <= N.of_nat (length p) < 4294967296 -> tr c (a_write p s) Ono Xnow.
Proof.
  intros H. apply (tr_eq c _ (alift Panic)); [|apply tr_panic]. intros w _. unfold a_write, alift. change u32max1 with 4294967296. rewrite N.mod_small by lia. destruct (N.leb_spec 16777216 (N.of_nat (length p))); [reflexivity|lia].
Qed.
Lemma recv_length n cs acc h c : recv_exact n cs acc = (Ok h, c) -> length h = (length acc + n)%nat.
Proof.
  revert cs acc h c. induction n as [n IH] using (well_founded_induction Wf_nat.lt_wf). intros cs. revert n IH. induction cs as [|[bs| |] cs IHc]; intros n IH acc h c E; (destruct n as [|n]; [inv E; lia|]); cbn [recv_exact] in E; try (inv E; fail).
  destruct (Nat.leb_spec (length bs) (S n)) as [Q|Q].
  - destruct bs as [|b bs].
    + cbn [length] in E. rewrite Nat.sub_0_r, app_nil_r in E. eapply IHc; eassumption.
    + apply IH in E; [rewrite app_length in E; lia|cbn [length] in *; lia].
  - assert (E' : acc ++ firstn (S n) bs = h) by congruence. rewrite <- E', app_length, firstn_length. lia.
Qed.
Lemma read_packet_ok cs p s cs' : read_packet cs = (Ok (p, s), cs') -> packet_ok (p, s).
Proof.
  intros E. split; [|exact (read_packet_seq _ _ _ _ E)]. cbn [fst]. unfold read_packet in E. destruct (recv_exact 4 cs []) as [[h|e| |] cs1] eqn:E1; try (inv E; fail).
  destruct (recv_exact _ cs1 []) as [[b|e| |] cs2] eqn:E2; try discriminate E. assert (b = p) by congruence. subst b. apply recv_length in E2. cbn [length Nat.add] in E2. rewrite E2, N2Nat.id.
  apply recv_length in E1. cbn [length Nat.add] in E1. pose proof (le_dec_lt (firstn 3 h)) as L. rewrite firstn_length, E1 in L. exact L.
Qed.
Lemma a_read_cases w : (exists p cs, packet_ok p /\ a_read w = (Ok p, World (w_client w) cs (w_log w ++ [got p]))) \/ (exists e cs, a_read w = (Err e, World (w_client w) cs (w_log w))) \/
  (exists cs, a_read w = (Diverge, World (w_client w) cs (w_log w))).
Proof.
  unfold a_read. destruct (read_packet (w_in w)) as [[[p s]|e| |] cs] eqn:R; [left; exists (p, s), cs; split; [exact (read_packet_ok _ _ _ _ R)|reflexivity]|right; left; eauto| |right; right; eauto].
  exfalso. revert R. clear. unfold read_packet. assert (G : forall n cs acc, fst (recv_exact n cs acc) <> Panic).
  { intros n is. revert n. induction is as [|[bs| |] is IH]; intros n acc; destruct n as [|n]; cbn [recv_exact]; try discriminate. destruct (_ <=? _)%nat; [apply IH|discriminate]. }
  pose proof (G 4%nat (w_in w) []) as G1. destruct (recv_exact 4 (w_in w) []) as [[h|?| |] c]; try discriminate; [|now destruct G1].
  pose proof (G (N.to_nat (le_dec (firstn 3 h))) c []) as G2. destruct (recv_exact _ c []) as [[x|?| |] c']; try discriminate. now destruct G2.
Qed.
Lemma tr_read c : tr c a_read (fun c' p ps => c' = c /\ ps = [p]) Xno.
Proof.
  split; [split; [|contradiction]|split].
  - intros c1 a1 p c2 a2 q _ (-> & ->) (-> & E). cbn [app] in E. injection E as -> ->. auto.
  - intros w W. unfold goes. destruct (a_read_cases w) as [([p s] & cs & H & ->)|[(e & cs & ->)|(cs & ->)]]; cbn [fst snd w_log w_client].
    + exists [got (p, s)]. split; [reflexivity|]. cbn [received flat_map got fst snd app]. split; [constructor; [exact H|constructor]|]. split; [|split].
      * intros a c'. split; [intros [E1 E2]; split; congruence|intros [-> E]; split; congruence].
      * split; [discriminate|contradiction].
      * intros c' a x y E [_ ->]. cbn [app] in E. injection E as _ <-. reflexivity.
    + done0; [|split; [discriminate|contradiction]|intros c' b x y E _; exact (nil_app _ _ E)]. intros a c'. split; [intros []; discriminate|intros [_ E]; discriminate].
    + done0; [|split; [discriminate|contradiction]|intros c' b x y E _; exact (nil_app _ _ E)]. intros a c'. split; [intros []; discriminate|intros [_ E]; discriminate].
  - intros w W ps qs t rest P D. split; [|contradiction]. intros c' [p s] (-> & ->). cbn [app] in P. destruct (a_read_ok _ _ _ _ _ P) as (cs & -> & P'). cbn [fst snd w_client w_log w_in].
    split; [reflexivity|]. split; [exact W|]. split; [|exact P']. exists [got (p, s)]. auto.
Qed.
Lemma tr_in {A} c (m : world -> act A) O X : (forall v, tr c (m v) O X) -> tr c (fun w => m w w) O X.
Proof.
  intros H. split; [exact (proj1 (H (World c [] [])))|]. split; intros w W; [exact (proj1 (proj2 (H w)) w W)|exact (proj2 (proj2 (H w)) w W)].
Qed.
(* combined with what follows *)
Lemma tr_ret_bind {A B} c (a : A) (f : A -> act B) O X : tr c (f a) O X -> tr c (abind (aret a) f) O X.
Proof. apply tr_eq. reflexivity. Qed.
Lemma tr_ok_bind {A B} c (r : res A) a (f : A -> act B) O X : r = Ok a -> tr c (f a) O X -> tr c (abind (alift r) f) O X.
Proof. intros ->. apply tr_eq. reflexivity. Qed.
Lemma tr_fail_bind {A B} c (r : res A) e (f : A -> act B) : r = Err e -> tr c (abind (alift r) f) Ono Xno.
Proof. intros ->. apply (tr_eq c _ (alift (Err e))); [reflexivity|apply tr_fail]. Qed.
Lemma tr_diverge_bind {A B} c (r : res A) (f : A -> act B) : r = Diverge -> tr c (abind (alift r) f) Ono Xno.
Proof. intros ->. apply (tr_eq c _ (alift Diverge)); [reflexivity|apply tr_diverge]. Qed.
Lemma tr_panic_bind {A B} c (r : res A) (f : A -> act B) : r = Panic -> tr c (abind (alift r) f) Ono Xnow.
Proof. intros ->. apply (tr_eq c _ (alift Panic)); [reflexivity|apply tr_panic]. Qed.
Lemma tr_assoc {A B C} c (m : act A) (g : A -> act B) (f : B -> act C) O X : tr c (abind m (fun a => abind (g a) f)) O X -> tr c (abind (abind m g) f) O X.
Proof. apply tr_eq. intros w _. unfold abind. destruct (m w) as [[a|e| |] w']; reflexivity. Qed.
Lemma tr_client_bind {B} c (f : client -> act B) O X : tr c (f c) O X -> tr c (abind a_client f) O X.
Proof. apply tr_eq. intros w <-. reflexivity. Qed.
Lemma tr_read_bind {B} c (f : packet -> act B) (O : oks B) X :
  (forall c' b, ~ O c' b []) -> ~ X [] -> (forall p, packet_ok p -> tr c (f p) (fun c' b ps => O c' b (p :: ps)) (fun ps => X (p :: ps))) -> tr c (abind a_read f) O X.
Proof.
  intros NO NX F. eapply tr_conv.
  - apply (tr_bind c a_read f _ _ (fun _ p c' b ps => O c' b (p :: ps)) (fun _ p ps => X (p :: ps)) (tr_read c)). intros c1 a p N (-> & ->). apply F. inv N. assumption.
  - intros c' b ps N. cbn beta. split; [intros (c1 & a & p & q & -> & (-> & ->) & H); exact H|]. intros H. destruct ps as [|p ps]; [now apply NO in H|]. exists c, p, [p], ps. auto.
  - intros ps N. cbn beta. split; [intros [[]|(c1 & a & p & q & -> & (-> & ->) & H)]; exact H|]. intros H. destruct ps as [|p ps]; [contradiction|]. right. exists c, p, [p], ps. auto.
Qed.
Lemma tr_write_bind {B} c p s (f : unit -> act B) O X : N.of_nat (length p) < 16777216 -> tr c (f tt) O X -> tr c (abind (a_write p s) f) O X.
Proof.
  intros L F. eapply tr_conv.
  - apply (tr_bind c _ f _ _ (fun _ _ => O) (fun _ _ => X) (tr_write c p s L)). intros c1 [] q _ (-> & _). exact F.
  - intros c' b ps _. unfold Oret. split; [intros (c1 & a & q1 & q2 & -> & (-> & -> & ->) & H); exact H|]. intros H. exists c, tt, [], ps. auto.
  - intros ps _. unfold Oret, Xno. split; [intros [[]|(c1 & a & q1 & q2 & -> & (-> & -> & ->) & H)]; exact H|]. intros H. right. exists c, tt, [], ps. auto.
Qed.
Lemma tr_set_bind {B} c c2 (f : unit -> act B) O X : tr c2 (f tt) O X -> tr c (abind (a_set_client c2) f) O X.
Proof.
  intros F. eapply tr_conv.
  - apply (tr_bind c _ f _ _ (fun _ _ => O) (fun _ _ => X) (tr_set c c2)). intros c1 [] q _ (-> & _). exact F.
  - intros c' b ps _. unfold Oret. split; [intros (c1 & a & q1 & q2 & -> & (-> & -> & ->) & H); exact H|]. intros H. exists c2, tt, [], ps. auto.
  - intros ps _. unfold Oret, Xno. split; [intros [[]|(c1 & a & q1 & q2 & -> & (-> & -> & ->) & H)]; exact H|]. intros H. right. exists c2, tt, [], ps. auto.
Qed.
(* reading a packet that may be empty or an error *)
Lemma tr_read_or {B} c (f : packet -> act B) (O : oks B) X :
  (forall c' b, ~ O c' b []) -> ~ X [] ->
  (forall p, packet_ok p -> tr c (f p) (fun c' b ps => O c' b (p :: ps)) (fun ps => X (p :: ps)) \/
    (fst p = [] /\ (forall w, f p w = (Panic, w)) /\ (forall c' b ps, ~ O c' b (p :: ps)) /\ (forall ps, ~ X (p :: ps)))) -> tr c (abind a_read f) O X.
Proof.
  intros NO NX F. split; [split|split].
  - intros c1 a1 p c2 a2 q N H1 H2. destruct p as [|x p]; [now apply NO in H1|]. cbn [app] in *. pose proof N as N'. inv N'. destruct (F x ltac:(assumption)) as [[[F1 _] _]|(_ & _ & F1 & _)]; [|now apply F1 in H1].
    eapply F1; try eassumption.
  - intros c1 a1 p q N H1 H2. destruct p as [|x p]; [now apply NO in H1|]. cbn [app] in *. pose proof N as N'. inv N'. destruct (F x ltac:(assumption)) as [[[_ F1] _]|(_ & _ & F1 & _)]; [|now apply F1 in H1].
    eapply F1; eassumption.
  - intros w W. unfold goes, abind. destruct (a_read_cases w) as [([p s] & cs & H & ->)|[(e & cs & ->)|(cs & ->)]]; cbn [fst snd w_log w_client].
    + destruct (F _ H) as [(_ & G & _)|(E & P & F1 & F2)].
      * destruct (G (World (w_client w) cs (w_log w ++ [got (p, s)])) W) as (l & L & N & H1 & H2 & H3). exists (got (p, s) :: l). split; [rewrite L; cbn [w_log]; now rewrite <- app_assoc|].
        change (received (got (p, s) :: l)) with ((p, s) :: received l). split; [constructor; assumption|]. split; [exact H1|]. split.
        -- split; [|exact (proj2 H2)]. intros Y. destruct (proj1 H2 Y) as [Z|(k & t & Z)]; [left; exact Z|]. right. exists ((p, s) :: k), t. now rewrite Z.
        -- intros c' a x y E K. destruct x as [|x0 x]; [now apply NO in K|]. cbn [app] in E. injection E as <- E. exact (H3 _ _ _ _ E K).
      * rewrite P. cbn [fst snd w_log w_client]. exists [got (p, s)]. split; [reflexivity|]. change (received [got (p, s)]) with [(p, s)]. split; [constructor; [exact H|constructor]|]. split; [|split].
        -- intros a c'. split; [intros []; discriminate|]. intros K. now apply F1 in K.
        -- split; [intros _; right; exists [], s; cbn [fst] in E; now subst p|]. intros K. now apply F2 in K.
        -- intros c' a x y E' K. destruct x as [|x0 x]; [now apply NO in K|]. cbn [app] in E'. injection E' as <- _. now apply F1 in K.
    + done0; [|split; [discriminate|intros K; now apply NX in K]|intros c' b x y E _; exact (nil_app _ _ E)]. intros a c'. split; [intros []; discriminate|intros K; now apply NO in K].
    + done0; [|split; [discriminate|intros K; now apply NX in K]|intros c' b x y E _; exact (nil_app _ _ E)]. intros a c'. split; [intros []; discriminate|intros K; now apply NO in K].
  - intros w W ps qs t rest P D. destruct ps as [|p ps]; [split; [intros c' b K; now apply NO in K|contradiction]|]. pose proof (Forall_inv (pending_numb _ _ _ _ _ P)) as PO. cbn [app] in P.
    destruct (a_read_ok _ _ _ _ _ P) as (cs & E & P'). destruct (F p PO) as [(_ & _ & R)|(_ & _ & F1 & F2)].
    + unfold abind in *. rewrite E in *. destruct (R (World (w_client w) cs (w_log w ++ [got p])) W ps qs t rest P' D) as [R1 R2]. split.
      * intros c' b K. destruct (R1 _ _ K) as (K1 & K2 & (l & K3 & K4) & K5). split; [exact K1|]. split; [exact K2|]. split; [|exact K5]. exists (got p :: l). rewrite K3. cbn [w_log]. rewrite <- app_assoc. split; [reflexivity|]. destruct p. cbn [received flat_map got fst snd app]. fold (received l). now rewrite K4.
      * intros K. destruct (R2 K) as (K1 & l & K3 & K4). split; [exact K1|]. exists (got p :: l). rewrite K3. cbn [w_log]. rewrite <- app_assoc. split; [reflexivity|]. destruct p. cbn [received flat_map got fst snd app]. fold (received l). now rewrite K4.
    + split; [intros c' b K; now apply F1 in K|intros K; now apply F2 in K].
Qed.
Lemma check_cases p m : (p = [] /\ check_error_packet p m = Panic) \/ (starts_byte 0xFF p /\ exists e, check_error_packet p m = Err e) \/ (not_byte 0xFF p /\ check_error_packet p m = Ok tt).
Proof.
  destruct p as [|b p]; [left; split; reflexivity|right]. destruct (N.eq_dec (b2n b) 0xFF) as [E|E].
  - left. assert (S : starts_byte 0xFF (b :: p)) by (exists p; f_equal; rewrite <- E; symmetry; apply n2b_b2n). split; [exact S|]. exact (check_error_stop _ m S).
  - right. assert (S : not_byte 0xFF (b :: p)) by (exists b, p; auto). split; [exact S|]. now apply check_pass.
Qed.
Lemma starts_not n p : starts_byte n p -> n < 256 -> ~ not_byte n p.
Proof. intros (d & ->) L (x & d' & E & K). injection E as <- <-. apply K. now apply b2n_n2b. Qed.
(* what is needed of the packets that follow *)
Definition first_ok {B} (O : oks B) (X : list packet -> Prop) : Prop :=
  (forall c' b ps, O c' b ps -> exists p q, ps = p :: q /\ not_byte 0xFF (fst p)) /\ (forall ps, X ps -> exists p q, ps = p :: q /\ not_byte 0xFF (fst p)).
Lemma tr_check_bind {B} c m (f : packet -> act B) (O : oks B) X : first_ok O X ->
  (forall p, packet_ok p -> not_byte 0xFF (fst p) -> tr c (f p) (fun c' b ps => O c' b (p :: ps)) (fun ps => X (p :: ps))) ->
  tr c (r <== a_read ;; _ <== alift (check_error_packet (fst r) m) ;; f r) O X.
Proof.
  intros [H1 H2] F. apply tr_read_or.
  - intros c' b K. destruct (H1 _ _ _ K) as (? & ? & E & _). discriminate E.
  - intros K. destruct (H2 _ K) as (? & ? & E & _). discriminate E.
  - intros p P. destruct (check_cases (fst p) m) as [[E C]|[[E (e & C)]|[E C]]].
    + right. split; [exact E|]. split; [intros w; unfold abind, alift; now rewrite C|]. split.
      * intros c' b ps K. destruct (H1 _ _ _ K) as (? & ? & E1 & x & d & E2 & _). injection E1 as <- <-. congruence.
      * intros ps K. destruct (H2 _ K) as (? & ? & E1 & x & d & E2 & _). injection E1 as <- <-. congruence.
    + left. eapply tr_conv; [apply (tr_fail_bind c _ e); exact C| |]; unfold Ono, Xno.
      * intros c' b ps _. split; [contradiction|]. intros K. destruct (H1 _ _ _ K) as (? & ? & E1 & E2). injection E1 as <- <-. now apply (starts_not _ _ E) in E2.
      * intros ps _. split; [contradiction|]. intros K. destruct (H2 _ K) as (? & ? & E1 & E2). injection E1 as <- <-. now apply (starts_not _ _ E) in E2.
    + left. apply (tr_ok_bind c _ tt); [exact C|]. now apply F.
Qed.
Lemma tr_check_end c m : tr c (r <== a_read ;; alift (check_error_packet (fst r) m)) (fun c' _ ps => c' = c /\ exists p, ps = [p] /\ not_byte 0xFF (fst p)) Xno.
Proof.
  apply (tr_eq c _ (r <== a_read ;; _ <== alift (check_error_packet (fst r) m) ;; aret tt)).
  { intros w _. unfold abind, alift, aret. destruct (a_read w) as [[r|e| |] w']; try reflexivity. destruct (check_error_packet (fst r) m) as [[]|e| |]; reflexivity. }
  apply tr_check_bind.
  - split; [intros c' b ps (_ & p & -> & H); eauto|contradiction].
  - intros p P H. eapply tr_conv; [apply tr_ret| |]; unfold Oret, Xno.
    + intros c' [] ps _. split; [intros (-> & _ & ->); eauto|]. intros (-> & q & E & _). injection E as _ ->. auto.
    + intros ps _. tauto.
Qed.
