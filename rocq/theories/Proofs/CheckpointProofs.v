(* Proofs for C76, C77. *)
From Coq Require Import Strings.String.
From Verif Require Import Base.Tac Base.Bytes Base.Text Base.Res Base.Str Model.Gtid Model.GtidMaria Model.Events Model.Client
  Spec.GtidSpec Spec.GtidMariaSpec Spec.ClientSpec Spec.CheckpointSpec
  Proofs.GtidProofs Proofs.GtidSetProofs Proofs.GtidMariaProofs Proofs.ClientProofs Proofs.CommitTotal.
Local Open Scope N_scope.

(* ---- the specification, one event at a time ---- *)
Lemma latest_cons {A} (mark : hev -> option A) b x es g :
  latest mark b (x :: es) g <-> latest mark (match mark x with Some g => Some g | None => b end) es g.
Proof.
  unfold latest. split.
  - intros [(a & y & r & E & Hy & Hr)|[-> H]].
    + destruct a as [|z a]; cbn [app] in E; inv E.
      * right. rewrite Hy. auto.
      * left. exists a, y, r. auto.
    + right. apply Forall_cons_iff in H. destruct H as [Hx H]. rewrite Hx. auto.
  - intros [(a & y & r & -> & Hy & Hr)|[E H]].
    + left. exists (x :: a), y, r. auto.
    + destruct (mark x) as [g'|] eqn:Ex.
      * left. injection E as ->. exists [], x, es. auto.
      * right. auto.
Qed.
Lemma latest_nil {A} (mark : hev -> option A) b g : latest mark b [] g <-> b = Some g.
Proof.
  unfold latest. split.
  - intros [(a & y & r & E & _)|[-> _]]; [|reflexivity]. destruct a; discriminate.
  - intros ->. right. auto.
Qed.
Definition inside1 (b : bool) (e : event) : bool := if is_begin e then true else if is_end e then false else b.
Lemma begin_not_end e : is_begin e = true -> is_end e = false.
Proof.
  destruct e; try discriminate. cbn [is_begin is_end]. destruct (text_eqb_spec (q_sql q) (tx "BEGIN")) as [-> |]; [reflexivity|discriminate].
Qed.
Lemma inside_cons b x es : inside b (x :: es) <-> inside (inside1 b (snd x)) es.
Proof.
  unfold inside, inside1. split.
  - intros [(a & y & r & E & Hy & Hr)|[-> H]].
    + destruct a as [|z a]; cbn [app] in E; inv E.
      * right. rewrite Hy. auto.
      * left. exists a, y, r. auto.
    + right. apply Forall_cons_iff in H. destruct H as [Hx H]. rewrite Hx. destruct (is_begin (snd x)); auto.
  - intros [(a & y & r & -> & Hy & Hr)|[E H]].
    + left. exists (x :: a), y, r. auto.
    + destruct (is_begin (snd x)) eqn:Eb.
      * left. exists [], x, es. auto.
      * destruct (is_end (snd x)) eqn:Ee; [discriminate|]. right. auto.
Qed.
Lemma inside_nil b : inside b [] <-> b = true.
Proof.
  unfold inside. split.
  - intros [(a & y & r & E & _)|[-> _]]; [|reflexivity]. destruct a; discriminate.
  - intros ->. right. auto.
Qed.
Definition completes1 (b : bool) (e : event) : bool := is_end e || is_statement e && negb b.
Lemma completes_nil b x : completes b [] x <-> completes1 b (snd x) = true.
Proof.
  unfold completes, completes1. rewrite inside_nil. rewrite Bool.orb_true_iff, Bool.andb_true_iff, Bool.negb_true_iff, Bool.not_true_iff_false. tauto.
Qed.
Lemma recorded_cons {A} (mark : hev -> option A) g0 t0 x es g rest :
  recorded mark g0 t0 (x :: es) g rest <->
  (rest = es /\ g0 = Some g /\ completes1 t0 (snd x) = true) \/
  recorded mark (match mark x with Some g => Some g | None => g0 end) (inside1 t0 (snd x)) es g rest.
Proof.
  unfold recorded. split.
  - intros (pre & y & E & Hl & Hc). destruct pre as [|z pre]; cbn [app] in E; inv E.
    + left. rewrite latest_nil in Hl. rewrite completes_nil in Hc. auto.
    + right. exists pre, y. split; [reflexivity|]. rewrite latest_cons in Hl. split; [exact Hl|].
      unfold completes in *. rewrite inside_cons in Hc. exact Hc.
  - intros [(-> & -> & Hc)|(pre & y & -> & Hl & Hc)].
    + exists [], x. split; [reflexivity|]. rewrite latest_nil, completes_nil. auto.
    + exists (x :: pre), y. split; [reflexivity|]. rewrite latest_cons. split; [exact Hl|].
      unfold completes in *. rewrite inside_cons. exact Hc.
Qed.
Lemma recorded_nil {A} (mark : hev -> option A) g0 t0 g rest : ~ recorded mark g0 t0 [] g rest.
Proof. intros (pre & x & E & _). destruct pre; discriminate. Qed.

(* ---- one commit ---- *)
Definition put_list (l : option gtid_list) (g : option mgtid) : option gtid_list :=
  match g, l with Some g, Some l => Some (snd (gtid_list_add l g)) | _, _ => l end.
Lemma commit_gtid_step bl c c' : commit_gtid bl c = Ok c' ->
  o_strategy (c_opts c') = o_strategy (c_opts c) /\ c_txn c' = false /\ c_mysql c' = c_mysql c /\ c_maria c' = c_maria c /\
  o_list (c_opts c') = put_list (o_list (c_opts c)) (c_maria c) /\
  match c_mysql c, o_set (c_opts c) with
  | Some g, Some s => exists b s', gtid_set_add bl s g = Ok (b, s') /\ o_set (c_opts c') = Some s'
  | _, _ => o_set (c_opts c') = o_set (c_opts c)
  end.
Proof.
  unfold commit_gtid. set (o := match c_maria c with Some _ => _ | None => _ end).
  assert (Ho : o_set o = o_set (c_opts c) /\ o_strategy o = o_strategy (c_opts c) /\ o_list o = put_list (o_list (c_opts c)) (c_maria c)).
  { unfold o, put_list. destruct (c_maria c), (o_list (c_opts c)) eqn:E; cbn; auto. }
  destruct Ho as (H1 & H2 & H3). rewrite H1. destruct (c_mysql c) as [g|] eqn:Eg; [destruct (o_set (c_opts c)) as [s|] eqn:Es|].
  - destruct (gtid_set_add bl s g) as [[b s']|e| |] eqn:Ea; cbn [rbind]; try discriminate.
    intros E. injection E as <-. cbn [c_opts with_set o_strategy o_list o_set c_txn c_mysql c_maria]. repeat split; auto. eauto.
  - cbn [rbind]. intros E. injection E as <-. cbn [c_opts c_txn c_mysql c_maria]. repeat split; auto. 
  - cbn [rbind]. intros E. injection E as <-. cbn [c_opts c_txn c_mysql c_maria]. repeat split; auto. 
Qed.
Definition next_gtid {A} (mark : option A) (g : option A) : option A := match mark with Some x => Some x | None => g end.
Lemma commit_step bl c h e c' : mode c -> commit bl c h e = Ok c' ->
  mode c' /\ c_txn c' = inside1 (c_txn c) e /\ c_mysql c' = next_gtid (mysql_mark (h, e)) (c_mysql c) /\
  c_maria c' = next_gtid (maria_mark (h, e)) (c_maria c) /\
  (completes1 (c_txn c) e = false -> o_set (c_opts c') = o_set (c_opts c) /\ o_list (c_opts c') = o_list (c_opts c)) /\
  (completes1 (c_txn c) e = true -> mysql_mark (h, e) = None /\ maria_mark (h, e) = None /\
    o_list (c_opts c') = put_list (o_list (c_opts c)) (c_maria c) /\
    match c_mysql c, o_set (c_opts c) with
    | Some g, Some s => exists b s', gtid_set_add bl s g = Ok (b, s') /\ o_set (c_opts c') = Some s'
    | _, _ => o_set (c_opts c') = o_set (c_opts c)
    end).
Proof.
  intros Hm H. unfold commit in H. destruct (update_gtid_position bl c e) as [c1|er| |] eqn:E; cbn [rbind] in H; try discriminate. injection H as <-.
  pose proof (position_gst c1 h e) as G. unfold gst in G. injection G as G1 G2 G3 G4 G5 G6. unfold mode. rewrite G1, G2, G3, G4, G5, G6. clear G1 G2 G3 G4 G5 G6.
  unfold mode in Hm. rewrite <- Hm at 1. unfold completes1, inside1, mysql_mark, maria_mark, next_gtid. cbn [snd].
  destruct (is_end e) eqn:Ee.
  { rewrite (end_update bl c e Hm Ee) in E. apply commit_gtid_step in E. destruct E as (A1 & A2 & A3 & A4 & A5 & A6).
    assert (is_begin e = false) as -> by (destruct (is_begin e) eqn:X; [apply begin_not_end in X; congruence|reflexivity]).
    cbn [orb]. destruct e; try discriminate; cbn [is_end] in Ee; repeat split; auto; try discriminate. }
  cbn [orb]. destruct (is_begin e) eqn:Eb.
  { destruct e; try discriminate. unfold update_gtid_position in E. rewrite Hm in E. cbn [strategy_eqb negb] in E.
    cbn [is_begin is_end is_statement] in *. unfold is_begin, is_end in *. destruct (q_sql q) as [|z t] eqn:Eq; [discriminate|].
    rewrite Eb in E. rewrite Eb. injection E as <-. cbn [negb andb c_opts c_txn c_mysql c_maria]. repeat split; auto; discriminate. }
  destruct (is_statement e) eqn:Es.
  { destruct (c_txn c) eqn:Et; cbn [negb andb].
    - destruct e; try discriminate. unfold update_gtid_position in E. rewrite Hm in E. cbn [strategy_eqb negb] in E.
      cbn [is_begin is_end is_statement] in *. destruct (q_sql q) as [|z t] eqn:Eq; [discriminate|].
      rewrite Eb, Ee, Et in E. cbn [negb] in E. injection E as <-. rewrite Et. repeat split; auto; discriminate.
    - rewrite (statement_update bl c e Hm Et Es) in E. apply commit_gtid_step in E. destruct E as (A1 & A2 & A3 & A4 & A5 & A6).
      destruct e; try discriminate; repeat split; auto; try discriminate. }
  cbn [andb]. unfold update_gtid_position in E. rewrite Hm in E. cbn [strategy_eqb negb] in E.
  destruct e; try discriminate; try (injection E as <-; cbn [c_opts c_txn c_mysql c_maria]; repeat split; auto; discriminate).
  cbn [is_begin is_end is_statement] in *. destruct (q_sql q) as [|z t] eqn:Eq; [injection E as <-; repeat split; auto; discriminate|].
  exfalso. rewrite Eb, Ee in Es. discriminate.
Qed.

(* ---- MySQL: any sequence of events ---- *)
Definition mysql_ok (g : gtid) : Prop := uuid_ok (g_source g) /\ g_txn g < u64_top.
Lemma step_set bl c h e c' s : mode c -> commit bl c h e = Ok c' -> o_set (c_opts c) = Some s -> set_ok s -> (forall g, c_mysql c = Some g -> mysql_ok g) ->
  exists s', o_set (c_opts c') = Some s' /\ set_ok s' /\ (set_canonical s -> set_canonical s') /\
    forall d n, set_has s' d n <-> set_has s d n \/
      (completes1 (c_txn c) e = true /\ exists g, c_mysql c = Some g /\ udata (g_source g) = d /\ g_txn g = n).
Proof.
  intros Hm H Hs Hok Hg. destruct (commit_step bl c h e c' Hm H) as (_ & _ & _ & _ & H0 & H1).
  destruct (completes1 (c_txn c) e).
  - destruct (H1 eq_refl) as (_ & _ & _ & A). rewrite Hs in A. destruct (c_mysql c) as [g|].
    + destruct A as (b & s' & Ea & Es). exists s'. split; [exact Es|].
      destruct (Hg g eq_refl) as [Hu Ht].
      destruct (add_all_spec bl [g] s Hok) as (s2 & E2 & O2 & M2 & C2 & _); [repeat constructor; assumption|].
      cbn [add_all] in E2. rewrite Ea in E2. cbn [rbind snd] in E2. injection E2 as <-. split; [exact O2|]. split; [exact C2|].
      intros d n. rewrite M2. split; (intros [X|X]; [now left|right]).
      * destruct X as (g' & [<-|[]] & X). eauto.
      * destruct X as (_ & g' & X & Y). injection X as <-. exists g. split; [now left|exact Y].
    + exists s. split; [congruence|]. split; [exact Hok|]. split; [auto|]. intros d n. split; [now left|]. intros [X|(_ & g & X & _)]; [exact X|discriminate].
  - destruct (H0 eq_refl) as [A _]. exists s. split; [congruence|]. split; [exact Hok|]. split; [auto|].
    intros d n. split; [now left|]. intros [X|(X & _)]; [exact X|discriminate].
Qed.
Definition marks_ok (es : list hev) : Prop := Forall (fun x => forall g, mysql_mark x = Some g -> mysql_ok g) es.
Theorem commit_any bl es : forall c c' s, mode c -> commit_all bl c es = Ok c' -> o_set (c_opts c) = Some s -> set_ok s ->
  (forall g, c_mysql c = Some g -> mysql_ok g) -> marks_ok es ->
  exists s', o_set (c_opts c') = Some s' /\ set_ok s' /\ (set_canonical s -> set_canonical s') /\
    forall d n, set_has s' d n <-> set_has s d n \/
      exists g rest, recorded mysql_mark (c_mysql c) (c_txn c) es g rest /\ udata (g_source g) = d /\ g_txn g = n.
Proof.
  induction es as [|[h e] es IH]; intros c c' s Hm H Hs Hok Hg Hes; cbn [commit_all] in H.
  - injection H as <-. exists s. repeat split; auto; try apply Hok. intros [X|(g & rest & X & _)]; [exact X|]. now apply recorded_nil in X.
  - destruct (commit bl c h e) as [c1|er| |] eqn:E; cbn [rbind] in H; try discriminate.
    destruct (step_set bl c h e c1 s Hm E Hs Hok Hg) as (s1 & S1 & O1 & K1 & M1).
    destruct (commit_step bl c h e c1 Hm E) as (Hm1 & T1 & G1 & _ & _ & _).
    apply Forall_cons_iff in Hes. destruct Hes as [He Hes].
    destruct (IH c1 c' s1 Hm1 H S1 O1) as (s' & S2 & O2 & K2 & M2); [|exact Hes|].
    { intros g. rewrite G1. unfold next_gtid. destruct (mysql_mark (h, e)) as [g'|] eqn:X; [intros Y; injection Y as <-; now apply He|apply Hg]. }
    exists s'. split; [exact S2|]. split; [exact O2|]. split; [auto|]. intros d n. rewrite M2, M1. rewrite G1, T1. split.
    + intros [[X|(X & g & Y & Z)]|(g & rest & X & Y)]; [now left|right|right].
      * exists g, es. rewrite recorded_cons. split; [left; auto|exact Z].
      * exists g, rest. rewrite recorded_cons. split; [right; exact X|exact Y].
    + intros [X|(g & rest & X & Y)]; [left; now left|]. rewrite recorded_cons in X. destruct X as [(_ & X & Z)|X].
      * left. right. split; [exact Z|]. exists g. auto.
      * right. exists g, rest. auto.
Qed.

(* ---- MariaDB ---- *)
Theorem commit_any_maria bl es : forall c c' l, mode c -> commit_all bl c es = Ok c' -> o_list (c_opts c) = Some l ->
  exists l', o_list (c_opts c') = Some l' /\ (NoDup (map mg_domain l) -> NoDup (map mg_domain l')) /\
    forall d,
      (exists g rest, recorded maria_mark (c_maria c) (c_txn c) es g rest /\ mg_domain g = d /\ domain_gtid l' d = Some g /\
        forall g2 rest2, recorded maria_mark (c_maria c) (c_txn c) es g2 rest2 -> mg_domain g2 = d -> (length rest <= length rest2)%nat) \/
      (domain_gtid l' d = domain_gtid l d /\ forall g rest, recorded maria_mark (c_maria c) (c_txn c) es g rest -> mg_domain g <> d).
Proof.
  induction es as [|[h e] es IH]; intros c c' l Hm H Hl; cbn [commit_all] in H.
  - injection H as <-. exists l. split; [exact Hl|]. split; [auto|]. intros d. right. split; [reflexivity|]. intros g rest X. now apply recorded_nil in X.
  - destruct (commit bl c h e) as [c1|er| |] eqn:E; cbn [rbind] in H; try discriminate.
    destruct (commit_step bl c h e c1 Hm E) as (Hm1 & T1 & _ & G1 & F1 & F2).
    assert (exists l1, o_list (c_opts c1) = Some l1 /\ (NoDup (map mg_domain l) -> NoDup (map mg_domain l1)) /\ forall d, 
      domain_gtid l1 d = if completes1 (c_txn c) e then match c_maria c with Some g => if mg_domain g =? d then Some g else domain_gtid l d | None => domain_gtid l d end
                         else domain_gtid l d) as (l1 & L1 & N1 & D1).
    { destruct (completes1 (c_txn c) e).
      - destruct (F2 eq_refl) as (_ & _ & A & _). rewrite Hl in A. unfold put_list in A. destruct (c_maria c) as [g|]; [|eauto].
        eexists. split; [exact A|]. split.
        + intros Hn. apply (madd_all_spec [g] l) in Hn. destruct Hn as [Hn _]. exact Hn.
        + intros d. apply gtid_list_add_lookup.
      - destruct (F1 eq_refl) as [_ A]. exists l. split; [congruence|auto]. }
    destruct (IH c1 c' l1 Hm1 H L1) as (l' & L2 & N2 & D2). exists l'. split; [exact L2|]. split; [auto|]. intros d.
    assert (Hlen : forall g rest, recorded maria_mark (c_maria c1) (c_txn c1) es g rest -> (length rest < length es)%nat).
    { intros g rest (pre & x & -> & _). rewrite app_length. cbn [length]. lia. }
    destruct (D2 d) as [(g & rest & R & Hd & Hv & Hlast)|[Hv Hnone]].
    + left. exists g, rest. split.
      { rewrite recorded_cons. right. rewrite G1, T1 in R. exact R. }
      split; [exact Hd|]. split; [exact Hv|]. intros g2 rest2 R2 Hd2. rewrite recorded_cons in R2. destruct R2 as [(-> & _)|R2].
      * apply Hlen in R. lia.
      * apply (Hlast g2 rest2); [|exact Hd2]. rewrite G1, T1. exact R2.
    + rewrite D1 in Hv. destruct (completes1 (c_txn c) e) eqn:Ec; [destruct (c_maria c) as [g|] eqn:Eg; [destruct (N.eqb_spec (mg_domain g) d) as [Hd|Hd]|]|].
      * left. exists g, es. split; [rewrite recorded_cons; left; auto|]. split; [exact Hd|]. split; [exact Hv|].
        intros g2 rest2 R2 Hd2. rewrite recorded_cons in R2. destruct R2 as [(-> & _)|R2]; [lia|].
        exfalso. apply (Hnone g2 rest2); [|exact Hd2]. rewrite G1, T1. exact R2.
      * right. split; [exact Hv|]. intros g2 rest2 R2. rewrite recorded_cons in R2. destruct R2 as [(_ & X & _)|R2]; [congruence|].
        apply (Hnone g2 rest2). rewrite G1, T1. exact R2.
      * right. split; [exact Hv|]. intros g2 rest2 R2. rewrite recorded_cons in R2. destruct R2 as [(_ & X & _)|R2]; [discriminate|].
        apply (Hnone g2 rest2). rewrite G1, T1. exact R2.
      * right. split; [exact Hv|]. intros g2 rest2 R2. rewrite recorded_cons in R2. destruct R2 as [(_ & _ & X)|R2]; [cbn [snd] in X; congruence|].
        apply (Hnone g2 rest2). rewrite G1, T1. exact R2.
Qed.

(* ---- adding what is already there ---- *)
Lemma hm_put_same {V} k (v : V) m : hm_get k m = Some v -> hm_put k v m = m.
Proof.
  induction m as [|[k' v'] m IH]; cbn [hm_get hm_put]; [discriminate|].
  destruct (text_eqb_spec k k') as [->|_]; [intros E; now injection E as ->|]. intros E. now rewrite IH.
Qed.
Lemma add_present bl s g us : set_ok s -> set_canonical s -> mysql_ok g -> hm_get (utext (g_source g)) s = Some us -> ivs_has (us_ivs us) (g_txn g) ->
  exists b, gtid_set_add bl s g = Ok (b, s).
Proof.
  intros Hok Hc [Hu Ht] Hget Hin. destruct (gtid_set_add_spec bl s g Hok Hu Ht) as (b & s' & us1 & us' & Ha & _ & _ & E1 & E2 & E3 & E4 & E5 & E6 & E7).
  rewrite Hget in E1. subst us1. exists b. rewrite Ha. do 2 f_equal. rewrite E2. replace us' with us; [now apply hm_put_same|].
  assert (canonical (us_ivs us)) as Hcu.
  { apply hm_get_In in Hget. unfold set_canonical in Hc. rewrite Forall_forall in Hc. now apply Hc in Hget. }
  destruct (E7 Hcu) as [Hc' _]. assert (us_ivs us = us_ivs us') as E.
  { apply canonical_unique; auto. intros n. rewrite E6. split; [auto|]. intros [X| ->]; [exact X|exact Hin]. }
  destruct us, us'; cbn in *; congruence.
Qed.
Lemma hm_get_put {V} k (v : V) m : hm_get k (hm_put k v m) = Some v.
Proof.
  induction m as [|[k' v'] m IH]; cbn [hm_put hm_get].
  - now rewrite text_eqb_refl.
  - destruct (text_eqb_spec k k') as [->|Hn]; cbn [hm_get]; [now rewrite text_eqb_refl|].
    destruct (text_eqb_spec k k'); [congruence|exact IH].
Qed.
Lemma add_twice bl s g b s' : set_ok s -> set_canonical s -> mysql_ok g -> gtid_set_add bl s g = Ok (b, s') -> exists b', gtid_set_add bl s' g = Ok (b', s').
Proof.
  intros Hok Hc Hg Ha. destruct Hg as [Hu Ht] eqn:X. clear X.
  destruct (gtid_set_add_spec bl s g Hok Hu Ht) as (b1 & s1 & us1 & us' & Ha1 & O1 & _ & E1 & E2 & E3 & E4 & E5 & E6 & E7).
  rewrite Ha in Ha1. injection Ha1 as <- <-.
  destruct (add_all_spec bl [g] s Hok) as (s2 & A2 & _ & _ & C2 & _); [repeat constructor; assumption|].
  cbn [add_all] in A2. rewrite Ha in A2. cbn [rbind snd] in A2. injection A2 as <-.
  apply (add_present bl s' g us'); auto.
  - subst s'. apply hm_get_put.
  - apply E6. now right.
Qed.
Lemma list_add_twice l g : snd (gtid_list_add (snd (gtid_list_add l g)) g) = snd (gtid_list_add l g).
Proof.
  induction l as [|x l IH]; cbn [gtid_list_add].
  - cbn [snd gtid_list_add]. now rewrite N.eqb_refl.
  - destruct (mg_domain x =? mg_domain g) eqn:E.
    + cbn [snd gtid_list_add]. now rewrite N.eqb_refl.
    + destruct (gtid_list_add l g) as [b r] eqn:Er. cbn [snd] in *. cbn [gtid_list_add]. rewrite E.
      destruct (gtid_list_add r g) as [b2 r2]. cbn [snd] in *. now rewrite IH.
Qed.

(* ---- committing the same event twice ---- *)
Lemma statement_kind e : is_statement e = true -> is_begin e = false /\ is_end e = false.
Proof.
  destruct e; try discriminate. cbn [is_statement]. destruct (q_sql q); [discriminate|]. intros H. apply andb_prop in H. destruct H as [H1 H2].
  now apply Bool.negb_true_iff in H1, H2.
Qed.
Lemma inside1_twice b e : inside1 (inside1 b e) e = inside1 b e.
Proof. unfold inside1. destruct (is_begin e), (is_end e); reflexivity. Qed.
Lemma completes1_twice b e : completes1 (inside1 b e) e = completes1 b e.
Proof.
  unfold completes1. destruct (is_end e) eqn:Ee; [reflexivity|]. cbn [orb]. destruct (is_statement e) eqn:Es; [|reflexivity].
  apply statement_kind in Es. destruct Es as [Eb _]. unfold inside1. now rewrite Eb, Ee.
Qed.
Lemma next_twice {A} (m g : option A) : next_gtid m (next_gtid m g) = next_gtid m g.
Proof. unfold next_gtid. destruct m; reflexivity. Qed.
Lemma position_twice c h e : update_binlog_position (update_binlog_position c h e) h e = update_binlog_position c h e.
Proof. unfold update_binlog_position. destruct e; try reflexivity; destruct (0 <? h_next h) eqn:E; reflexivity. Qed.
Lemma client_ext c c' : gst c = gst c' -> o_file (c_opts c) = o_file (c_opts c') -> o_pos (c_opts c) = o_pos (c_opts c') -> c = c'.
Proof. destruct c as [[] ? ? ?], c' as [[] ? ? ?]. unfold gst. cbn. intros E -> ->. congruence. Qed.
Lemma coords_step bl c h e c' : commit bl c h e = Ok c' ->
  o_file (c_opts c') = match e with EvRotate r => ro_file r | _ => o_file (c_opts c) end /\
  o_pos (c_opts c') = match e with EvTableMap _ => o_pos (c_opts c) | EvRotate r => ro_pos r mod u32max1 | _ => if 0 <? h_next h then h_next h else o_pos (c_opts c) end.
Proof.
  unfold commit. destruct (update_gtid_position bl c e) as [c1|er| |] eqn:E; cbn [rbind]; try discriminate. intros H. injection H as <-.
  assert (o_file (c_opts c1) = o_file (c_opts c) /\ o_pos (c_opts c1) = o_pos (c_opts c)) as [<- <-].
  { unfold update_gtid_position in E. destruct (negb _); [now inv E|].
    destruct e; try (inv E; split; reflexivity); try (apply commit_gtid_frame in E; tauto).
    destruct (q_sql q); [now inv E|]. destruct (text_eqb _ _); [now inv E|].
    destruct (_ || _); [apply commit_gtid_frame in E; tauto|]. destruct (negb _); [apply commit_gtid_frame in E; tauto|now inv E]. }
  unfold update_binlog_position. destruct e; cbn; auto; destruct (0 <? h_next h); cbn; auto.
Qed.
Theorem commit_twice bl c h e c1 :
  (forall s, o_set (c_opts c) = Some s -> set_ok s /\ set_canonical s) -> (forall g, c_mysql c = Some g -> mysql_ok g) ->
  (forall g, mysql_mark (h, e) = Some g -> mysql_ok g) ->
  commit bl c h e = Ok c1 -> commit bl c1 h e = Ok c1.
Proof.
  intros Hs Hg He H. destruct (strategy_eqb (o_strategy (c_opts c)) FromGtid) eqn:Em.
  2: { unfold commit, update_gtid_position in H |- *. rewrite Em in H. cbn [negb rbind] in H. injection H as <-.
       pose proof (position_gst c h e) as G. unfold gst in G. injection G as G _ _ _ _ _. rewrite G, Em. cbn [negb rbind]. now rewrite position_twice. }
  assert (Hm : mode c) by (unfold mode; destruct (o_strategy (c_opts c)); try discriminate; reflexivity).
  destruct (commit_step bl c h e c1 Hm H) as (Hm1 & T1 & G1 & L1 & F1 & F2).
  assert (Hs1 : forall s, o_set (c_opts c1) = Some s -> set_ok s).
  { intros s1 E1. destruct (o_set (c_opts c)) as [s|] eqn:Es.
    - destruct (step_set bl c h e c1 s Hm H Es) as (s' & E' & O' & _); [now apply Hs|exact Hg|]. rewrite E1 in E'. now injection E' as ->.
    - exfalso. destruct (completes1 (c_txn c) e).
      + destruct (F2 eq_refl) as (_ & _ & _ & A). destruct (c_mysql c); congruence.
      + destruct (F1 eq_refl) as [A _]. congruence. }
  assert (Hg1 : forall g, c_mysql c1 = Some g -> mysql_ok g).
  { intros g. rewrite G1. unfold next_gtid. destruct (mysql_mark (h, e)) as [g'|] eqn:X; [intros Y; injection Y as <-; now apply He|apply Hg]. }
  assert (exists c2, commit bl c1 h e = Ok c2) as [c2 H2].
  { destruct (commit_total bl set_ok mysql_ok) with (c := c1) (h := h) (e := e) as (c2 & X & _); [|split; assumption| |eauto].
    - intros s g Hok [Hu Ht]. destruct (gtid_set_add_spec bl s g Hok Hu Ht) as (b & s' & us & us' & X & Y & _). eauto.
    - intros g ->. apply He. reflexivity. }
  rewrite H2. f_equal. destruct (commit_step bl c1 h e c2 Hm1 H2) as (Hm2 & T2 & G2 & L2 & F3 & F4).
  rewrite T1, inside1_twice in T2. rewrite T1, completes1_twice in F3, F4. rewrite G1, next_twice in G2. rewrite L1, next_twice in L2.
  assert (o_set (c_opts c2) = o_set (c_opts c1) /\ o_list (c_opts c2) = o_list (c_opts c1)) as [A1 A2].
  { destruct (completes1 (c_txn c) e).
    - destruct (F2 eq_refl) as (M1 & M2 & B1 & B2). destruct (F4 eq_refl) as (_ & _ & B3 & B4).
      rewrite M1 in G1. rewrite M2 in L1. cbn [next_gtid] in G1, L1. rewrite G1 in B4. rewrite L1 in B3. split.
      + destruct (c_mysql c) as [g|] eqn:Eg; [destruct (o_set (c_opts c)) as [s|] eqn:Es|exact B4].
        * destruct B2 as (b & s1 & X & Y). rewrite Y in B4. destruct B4 as (b2 & s2 & X2 & Y2). destruct (Hs s eq_refl) as [Hok Hc].
          destruct (add_twice bl s g b s1 Hok Hc (Hg g eq_refl) X) as (b3 & X3). rewrite X2 in X3. injection X3 as _ ->. congruence.
        * rewrite B2 in B4. congruence.
      + rewrite B3, B1. unfold put_list. destruct (c_maria c) as [g|]; [|reflexivity]. destruct (o_list (c_opts c)) as [l|]; [|reflexivity].
        now rewrite list_add_twice.
    - now apply F3. }
  destruct (coords_step bl c h e c1 H) as [P1 P2]. destruct (coords_step bl c1 h e c2 H2) as [P3 P4].
  apply client_ext.
  - unfold gst. unfold mode in Hm1, Hm2. congruence.
  - rewrite P3. destruct e; congruence.
  - rewrite P4, P2. destruct e; try reflexivity; destruct (0 <? h_next h); reflexivity.
Qed.

(* ---- a stream delivered a second time ---- *)
Lemma has_get s g : set_ok s -> set_spelled s -> stream_gtid_ok g -> set_has s (udata (g_source g)) (g_txn g) ->
  exists us, hm_get (utext (g_source g)) s = Some us /\ ivs_has (us_ivs us) (g_txn g).
Proof.
  intros Hok Hsp (G1 & G2 & G3) (k & us & Hi & Hd & Hn). exists us. split; [|exact Hn].
  pose proof Hok as [Hnd Hent]. rewrite Forall_forall in Hent. pose proof (Hent _ Hi) as (K1 & _ & _). cbn [fst snd] in K1.
  unfold set_spelled in Hsp. rewrite Forall_forall in Hsp. pose proof (Hsp _ Hi) as [S1 _]. cbn [snd] in S1.
  rewrite G1, <- Hd, <- S1, <- K1. now apply hm_get_unique.
Qed.
Lemma add_all_present bl s h : set_ok s -> set_canonical s -> set_spelled s -> Forall stream_gtid_ok h ->
  Forall (fun g => set_has s (udata (g_source g)) (g_txn g)) h -> add_all bl s h = Ok s.
Proof.
  intros Hok Hc Hsp. induction 1 as [|g h Hg Hh IH]; intros Hin; cbn [add_all]; [reflexivity|]. apply Forall_cons_iff in Hin. destruct Hin as [Hi Hin].
  destruct (has_get s g Hok Hsp Hg Hi) as (us & U1 & U2). destruct (add_present bl s g us Hok Hc (stream_gtid_uuid g Hg) U1 U2) as [b ->]. cbn [rbind snd]. auto.
Qed.
Lemma coords_either bl es : forall c c1 d d1, commit_all bl c es = Ok c1 -> commit_all bl d es = Ok d1 ->
  (o_file (c_opts c1) = o_file (c_opts d1) \/ (o_file (c_opts c1) = o_file (c_opts c) /\ o_file (c_opts d1) = o_file (c_opts d))) /\
  (o_pos (c_opts c1) = o_pos (c_opts d1) \/ (o_pos (c_opts c1) = o_pos (c_opts c) /\ o_pos (c_opts d1) = o_pos (c_opts d))).
Proof.
  assert (Hsame : forall es c c1 d d1, commit_all bl c es = Ok c1 -> commit_all bl d es = Ok d1 ->
    (o_file (c_opts c) = o_file (c_opts d) -> o_file (c_opts c1) = o_file (c_opts d1)) /\
    (o_pos (c_opts c) = o_pos (c_opts d) -> o_pos (c_opts c1) = o_pos (c_opts d1))).
  { clear es. induction es as [|[h e] es IH]; intros c c1 d d1 Hc Hd; cbn [commit_all] in Hc, Hd; [inv Hc; inv Hd; auto|].
    destruct (commit bl c h e) as [c2|er| |] eqn:E1; cbn [rbind] in Hc; try discriminate.
    destruct (commit bl d h e) as [d2|er| |] eqn:E2; cbn [rbind] in Hd; try discriminate.
    destruct (IH _ _ _ _ Hc Hd) as [I1 I2]. apply coords_step in E1, E2. destruct E1 as [A1 A2], E2 as [B1 B2]. split; intros E.
    - apply I1. rewrite A1, B1, E. reflexivity.
    - apply I2. rewrite A2, B2, E. reflexivity. }
  induction es as [|[h e] es IH]; intros c c1 d d1 Hc Hd; cbn [commit_all] in Hc, Hd; [inv Hc; inv Hd; auto|].
  destruct (commit bl c h e) as [c2|er| |] eqn:E1; cbn [rbind] in Hc; try discriminate.
  destruct (commit bl d h e) as [d2|er| |] eqn:E2; cbn [rbind] in Hd; try discriminate.
  destruct (IH _ _ _ _ Hc Hd) as [I1 I2]. destruct (Hsame _ _ _ _ _ Hc Hd) as [J1 J2].
  apply coords_step in E1, E2. destruct E1 as [A1 A2], E2 as [B1 B2]. split.
  - destruct I1 as [I1|[I1 I3]]; [now left|]. rewrite I1, I3, A1, B1. destruct e; auto.
  - destruct I2 as [I2|[I2 I3]]; [now left|]. rewrite I2, I3, A2, B2. destruct e; auto; destruct (0 <? h_next h); auto.
Qed.
Lemma coords_again bl es c c1 d d1 : commit_all bl c es = Ok c1 -> commit_all bl d es = Ok d1 ->
  o_file (c_opts d) = o_file (c_opts c1) -> o_pos (c_opts d) = o_pos (c_opts c1) ->
  o_file (c_opts d1) = o_file (c_opts c1) /\ o_pos (c_opts d1) = o_pos (c_opts c1).
Proof.
  intros Hc Hd E1 E2. destruct (coords_either bl es c c1 d d1 Hc Hd) as [[A|[A A']] [B|[B B']]]; split; congruence.
Qed.
