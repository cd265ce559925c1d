(* Saved file and position (C15-C18). *)
From Verif Require Import Base.Tac Base.Bytes Base.Text Base.Res Base.Str Model.Gtid Model.GtidMaria Model.Events Model.Client
  Spec.GtidSpec Spec.ClientSpec Proofs.GtidProofs Proofs.ClientProofs.
Local Open Scope N_scope.

(* GTID bookkeeping does not touch the coordinates *)
Lemma commit_gtid_coords bl c c' : commit_gtid bl c = Ok c' -> o_file (c_opts c') = o_file (c_opts c) /\ o_pos (c_opts c') = o_pos (c_opts c).
Proof.
  unfold commit_gtid. set (o := match c_maria c with Some _ => _ | None => _ end).
  assert (Ho : o_file o = o_file (c_opts c) /\ o_pos o = o_pos (c_opts c)).
  { unfold o. destruct (c_maria c), (o_list (c_opts c)); auto. }
  destruct (c_mysql c) as [g|], (o_set o) as [s|]; cbn [rbind]; try (intros E; injection E as <-; exact Ho).
  destruct (gtid_set_add bl s g) as [[b s']|e| |]; cbn [rbind]; try discriminate. intros E. injection E as <-. exact Ho.
Qed.
Lemma update_gtid_coords bl c e c' : update_gtid_position bl c e = Ok c' ->
  o_file (c_opts c') = o_file (c_opts c) /\ o_pos (c_opts c') = o_pos (c_opts c).
Proof.
  unfold update_gtid_position. destruct (negb _); [intros E; injection E as <-; auto|].
  destruct e; try (intros E; injection E as <-; now cbn); try (apply commit_gtid_coords).
  destruct (q_sql q); [intros E; injection E as <-; auto|].
  destruct (text_eqb _ _); [intros E; injection E as <-; now cbn|].
  destruct (_ || _); [apply commit_gtid_coords|]. destruct (negb _); [apply commit_gtid_coords|intros E; injection E as <-; auto].
Qed.
Lemma commit_coords bl c h e c' : commit bl c h e = Ok c' ->
  o_file (c_opts c') = match announced_file (h, e) with Some f => f | None => o_file (c_opts c) end /\
  o_pos (c_opts c') = match announced_pos (h, e) with
                      | Some p => if is_rotate e then p mod 4294967296 else p | None => o_pos (c_opts c) end.
Proof.
  unfold commit. destruct (update_gtid_position bl c e) as [c1|er| |] eqn:E; cbn [rbind]; try discriminate.
  apply update_gtid_coords in E. destruct E as [E1 E2]. intros H. injection H as <-.
  unfold update_binlog_position, announced_file, announced_pos. cbn [fst snd].
  destruct e; cbn [is_rotate]; try (destruct (0 <? h_next h)); cbn [c_opts with_coords o_file o_pos]; auto.
Qed.

Lemma commit_all_split bl c a x b c' : commit_all bl c (a ++ x :: b) = Ok c' ->
  exists c1 c2, commit_all bl c a = Ok c1 /\ commit bl c1 (fst x) (snd x) = Ok c2 /\ commit_all bl c2 b = Ok c'.
Proof.
  rewrite commit_all_app. destruct (commit_all bl c a) as [c1|e| |]; cbn [rbind]; try discriminate.
  destruct x as [h e]. cbn [commit_all fst snd]. destruct (commit bl c1 h e) as [c2|er| |] eqn:E; cbn [rbind]; try discriminate.
  intros H. eauto.
Qed.
Lemma silent_pos bl es : Forall (fun x => announced_pos x = None) es -> forall c c', commit_all bl c es = Ok c' -> o_pos (c_opts c') = o_pos (c_opts c).
Proof.
  induction 1 as [|[h e] es H Hes IH]; intros c c' E; cbn [commit_all] in E; [congruence|].
  destruct (commit bl c h e) as [c1|er| |] eqn:E1; cbn [rbind] in E; try discriminate.
  apply commit_coords in E1. rewrite H in E1. apply IH in E. destruct E1. congruence.
Qed.
Lemma silent_file bl es : Forall (fun x => announced_file x = None) es -> forall c c', commit_all bl c es = Ok c' -> o_file (c_opts c') = o_file (c_opts c).
Proof.
  induction 1 as [|[h e] es H Hes IH]; intros c c' E; cbn [commit_all] in E; [congruence|].
  destruct (commit bl c h e) as [c1|er| |] eqn:E1; cbn [rbind] in E; try discriminate.
  apply commit_coords in E1. rewrite H in E1. apply IH in E. destruct E1. congruence.
Qed.

(* ---- logs ---- *)
Definition key (l : located) : text * N := (lo_file l, lo_start l).
Definition nxt (l : located) : text * N :=
  match lo_event l with EvRotate r => (ro_file r, ro_pos r) | _ => (lo_file l, lo_end l) end.

Lemma log_from_split A x B : NoDup (map key (A ++ x :: B)) -> log_from (lo_file x) (lo_start x) (A ++ x :: B) = x :: B.
Proof.
  induction A as [|a A IH]; intros H; cbn [app log_from map] in *.
  - destruct (text_eqb_spec (lo_file x) (lo_file x)) as [_|Hn]; [|congruence]. rewrite N.eqb_refl. reflexivity.
  - apply NoDup_cons_iff in H. destruct H as [H1 H2].
    destruct (text_eqb_spec (lo_file a) (lo_file x)) as [E|_]; [|now apply IH].
    destruct (N.eqb_spec (lo_start a) (lo_start x)) as [E2|_]; [|now apply IH].
    exfalso. apply H1. rewrite map_app, in_app_iff. right. left. unfold key. congruence.
Qed.
Lemma log_from_none f p log : ~ In (f, p) (map key log) -> log_from f p log = [].
Proof.
  induction log as [|a log IH]; intros H; cbn [log_from map In] in *; [reflexivity|].
  destruct (text_eqb_spec (lo_file a) f) as [E|_]; [|apply IH; tauto].
  destruct (N.eqb_spec (lo_start a) p) as [E2|_]; [|apply IH; tauto]. exfalso. apply H. left. unfold key. congruence.
Qed.
Lemma log_from_suffix f p log : exists A, log = A ++ log_from f p log.
Proof.
  induction log as [|a log IH]; [now exists []|]. cbn [log_from]. destruct (_ && _); [now exists []|].
  destruct IH as [A E]. exists (a :: A). cbn [app]. now f_equal.
Qed.
Lemma log_from_head f p log x r : log_from f p log = x :: r -> lo_file x = f /\ lo_start x = p.
Proof.
  induction log as [|a log IH]; cbn [log_from]; [discriminate|].
  destruct (text_eqb_spec (lo_file a) f) as [E|_]; [|exact IH]. destruct (N.eqb_spec (lo_start a) p) as [E2|_]; [|exact IH].
  cbn [andb]. intros H. inv H. auto.
Qed.

Definition starts_at (k : text * N) (log : list located) : Prop := match log with [] => True | x :: _ => key x = k end.
Fixpoint chain (log : list located) : Prop := match log with [] => True | x :: r => starts_at (nxt x) r /\ chain r end.

Lemma plain_nxt f p e : plain e -> nxt (Located f p (p + en_size e) (en_head e) (en_event e)) = (f, p + en_size e).
Proof. intros [_ H]. unfold nxt. cbn [lo_event lo_file lo_end]. destruct (en_event e); try reflexivity. discriminate. Qed.
Lemma locate_app f a : forall p b, exists q, locate f p (a ++ b) = locate f p a ++ locate f q b /\ p <= q /\ (Forall (fun e => 0 < en_size e) a -> Forall (fun l => lo_start l < q) (locate f p a)).
Proof.
  induction a as [|e a IH]; intros p b; cbn [app locate].
  - exists p. repeat split; [lia|constructor].
  - destruct (IH (p + en_size e) b) as (q & E & Hq & HF). exists q. rewrite E. repeat split; [lia|]. intros H.
    apply Forall_cons_iff in H. destruct H as [H1 H2]. constructor; [cbn [lo_start]; lia|auto].
Qed.
Lemma locate_keys f es : Forall (fun e => 0 < en_size e) es -> forall p l, In l (locate f p es) -> lo_file l = f /\ p <= lo_start l.
Proof.
  induction 1 as [|e es He Hes IH]; intros p l Hl; cbn [locate In] in Hl; [tauto|].
  destruct Hl as [<-|Hl]; [cbn; split; [reflexivity|lia]|]. destruct (IH _ _ Hl). split; [assumption|lia].
Qed.
Lemma locate_NoDup f es : Forall (fun e => 0 < en_size e) es -> forall p, NoDup (map key (locate f p es)).
Proof.
  induction 1 as [|e es He Hes IH]; intros p; cbn [locate map]; constructor; [|apply IH].
  intros Hi. apply in_map_iff in Hi. destruct Hi as (l & E & Hl). apply (locate_keys f es Hes) in Hl. unfold key in E. cbn in E.
  injection E as _ E. lia.
Qed.
Lemma plain_chain f es : Forall plain es -> forall p, starts_at (f, p) (locate f p es) /\ chain (locate f p es).
Proof.
  induction 1 as [|e es He Hes IH]; intros p; cbn [locate starts_at chain]; [tauto|]. split; [reflexivity|].
  rewrite (plain_nxt f p e He). apply IH.
Qed.
Lemma rotated_chain f es size h g rest : Forall plain es -> starts_at (g, 4) rest -> chain rest ->
  forall p, starts_at (f, p) (locate f p (es ++ [rotate_to size h g]) ++ rest) /\ chain (locate f p (es ++ [rotate_to size h g]) ++ rest).
Proof.
  intros Hes Hs Hc. induction Hes as [|e es He Hes IH]; intros p; cbn [app locate starts_at chain].
  - cbn [rotate_to en_size en_head en_event]. unfold nxt. cbn [lo_event ro_file ro_pos]. auto.
  - split; [reflexivity|]. rewrite (plain_nxt f p e He). apply IH.
Qed.
Lemma files_sizes f r : files_ok (f :: r) -> Forall (fun e => 0 < en_size e) (bf_entries f).
Proof.
  cbn [files_ok]. destruct r as [|g r]; intros [H _].
  - eapply Forall_impl; [|exact H]. intros e [He _]. exact He.
  - destruct H as (es & size & h & -> & H & Hs). apply Forall_app. split; [|repeat constructor; exact Hs].
    eapply Forall_impl; [|exact H]. intros e [He _]. exact He.
Qed.
Lemma files_names fs : forall l, In l (locate_files fs) -> In (lo_file l) (map bf_name fs).
Proof.
  induction fs as [|f fs IH]; intros l Hl; cbn [locate_files map In] in *; [tauto|]. apply in_app_iff in Hl.
  destruct Hl as [Hl|Hl]; [|right; auto]. left. clear -Hl. revert Hl. generalize 4%N.
  induction (bf_entries f) as [|e es IH]; intros p Hl; cbn [locate In] in Hl; [tauto|]. destruct Hl as [<-|Hl]; [reflexivity|eauto].
Qed.
Lemma files_chain fs : files_ok fs -> chain (locate_files fs) /\ match fs with [] => True | f :: _ => starts_at (bf_name f, 4) (locate_files fs) end.
Proof.
  induction fs as [|f fs IH]; intros H; [cbn; auto|]. cbn [files_ok locate_files] in *. destruct H as [H1 H2].
  destruct (IH H2) as [IH1 IH2]. destruct fs as [|g fs].
  - cbn [locate_files]. rewrite app_nil_r. destruct (plain_chain (bf_name f) (bf_entries f) H1 4). auto.
  - destruct H1 as (es & size & h & E & Hes & Hsz). rewrite E.
    destruct (rotated_chain (bf_name f) es size h (bf_name g) (locate_files (g :: fs)) Hes IH2 IH1 4). auto.
Qed.
Lemma files_NoDup fs : files_ok fs -> NoDup (map bf_name fs) -> NoDup (map key (locate_files fs)).
Proof.
  induction fs as [|f fs IH]; intros H Hn; [constructor|]. cbn [map] in Hn. apply NoDup_cons_iff in Hn. destruct Hn as [Hn1 Hn2].
  pose proof (files_sizes f fs H) as Hsz. cbn [files_ok] in H. destruct H as [_ H2]. cbn [locate_files]. rewrite map_app.
  specialize (IH H2 Hn2). pose proof (locate_NoDup (bf_name f) (bf_entries f) Hsz 4) as HA.
  assert (Hd : forall k, In k (map key (locate (bf_name f) 4 (bf_entries f))) -> In k (map key (locate_files fs)) -> False).
  { intros k Ha Hb. apply in_map_iff in Ha. destruct Ha as (a & <- & Ha). apply in_map_iff in Hb. destruct Hb as (b & E & Hb).
    apply (locate_keys _ _ Hsz) in Ha. destruct Ha as [Ha _]. apply files_names in Hb. unfold key in E. injection E as E _. congruence. }
  revert HA Hd. generalize (map key (locate (bf_name f) 4 (bf_entries f))) as ks. induction ks as [|k ks IHk]; intros HA Hd; cbn [app]; [exact IH|].
  apply NoDup_cons_iff in HA. destruct HA as [HA1 HA2]. constructor.
  - rewrite in_app_iff. intros [Hi|Hi]; [tauto|]. apply (Hd k); [now left|exact Hi].
  - apply IHk; [exact HA2|]. intros x Hx. apply Hd. now right.
Qed.
Lemma files_empty fs : files_ok fs -> locate_files fs = [] -> match fs with [] => True | f :: r => bf_entries f = [] /\ r = [] end.
Proof.
  destruct fs as [|f r]; [auto|]. cbn [files_ok locate_files]. intros [H _] E. apply app_eq_nil in E. destruct E as [E1 E2].
  destruct r as [|g r].
  - split; [|reflexivity]. destruct (bf_entries f); [reflexivity|discriminate].
  - destruct H as (es & size & h & E & _). rewrite E in E1. destruct es; discriminate.
Qed.
Lemma locate_last f es A l : Forall plain es -> forall p, locate f p es = A ++ [l] -> fst (nxt l) = f /\ Forall (fun x => lo_start x < snd (nxt l)) (locate f p es).
Proof.
  intros H. revert A. induction H as [|e es He Hes IH]; intros A p E; cbn [locate] in *; [destruct A; discriminate|].
  destruct A as [|a A]; cbn [app] in E.
  - injection E as <- E. rewrite E, (plain_nxt f p e He). cbn [fst snd]. split; [reflexivity|]. repeat constructor. cbn [lo_start]. destruct He. lia.
  - injection E as <- E. destruct (IH A _ E) as [H1 H2]. split; [exact H1|]. constructor; [|exact H2]. cbn [lo_start].
    destruct es as [|e2 es]; [destruct A; discriminate|]. cbn [locate] in H2. apply Forall_cons_iff in H2. cbn [lo_start] in H2. lia.
Qed.
Lemma rotated_last f p es size h g : exists A l, locate f p (es ++ [rotate_to size h g]) = A ++ [l] /\ nxt l = (g, 4).
Proof.
  revert p. induction es as [|e es IH]; intros p; cbn [app locate].
  - exists [], (Located f p (p + size) h (EvRotate (Rotate g 4))). split; reflexivity.
  - destruct (IH (p + en_size e)) as (A & l & E & H). rewrite E. eexists (_ :: A), l. split; [reflexivity|exact H].
Qed.
Lemma files_last fs : files_ok fs -> NoDup (map bf_name fs) -> forall A l, locate_files fs = A ++ [l] ->
  In (fst (nxt l)) (map bf_name fs) /\ ~ In (nxt l) (map key (locate_files fs)).
Proof.
  induction fs as [|f fs IH]; intros H Hn A l E; [destruct A; discriminate|].
  cbn [map] in Hn. apply NoDup_cons_iff in Hn. destruct Hn as [Hn1 Hn2].
  pose proof (files_sizes f fs H) as Hsz. cbn [files_ok locate_files map In] in *. destruct H as [H1 H2].
  destruct fs as [|g fs].
  - cbn [locate_files] in *. rewrite app_nil_r in *. destruct (locate_last _ _ _ _ H1 _ E) as [L1 L2]. split; [now left|].
    intros Hi. apply in_map_iff in Hi. destruct Hi as (x & Ex & Hx). rewrite Forall_forall in L2. apply L2 in Hx.
    rewrite <- Ex in Hx. unfold key in Hx. cbn [snd] in Hx. lia.
  - rewrite map_app, in_app_iff. destruct (locate_files (g :: fs)) as [|x r] eqn:El.
    + pose proof (files_empty _ H2 El) as [He ->]. rewrite app_nil_r in E.
      destruct H1 as (es & size & h & Ee & _). rewrite Ee in E.
      destruct (rotated_last (bf_name f) 4 es size h (bf_name g)) as (A' & l' & E' & Hx). rewrite E' in E. apply app_inj_tail in E. destruct E as [_ <-].
      rewrite Hx. cbn [fst map In]. split; [right; now left|]. intros [Hi|[]]. apply in_map_iff in Hi. destruct Hi as (y & Ey & Hy).
      apply (locate_keys _ _ Hsz) in Hy. unfold key in Ey. injection Ey as Ey _. destruct Hy as [Hy _]. apply Hn1. left. congruence.
    + assert (exists A', x :: r = A' ++ [l]) as [A' E'].
      { destruct (exists_last (l := x :: r)) as (A' & l' & E'); [discriminate|]. exists A'. rewrite E' in E |- *.
        rewrite app_assoc in E. apply app_inj_tail in E. destruct E as [_ <-]. reflexivity. }
      destruct (IH H2 Hn2 A' l E') as [I1 I2]. split; [right; exact I1|]. intros [Hi|Hi]; [|tauto].
      apply in_map_iff in Hi. destruct Hi as (y & Ey & Hy). apply (locate_keys _ _ Hsz) in Hy. destruct Hy as [Hy _].
      apply Hn1. rewrite <- Ey in I1. unfold key in I1. cbn [fst] in I1. congruence.
Qed.
Lemma chain_app A : forall l B, chain (A ++ l :: B) -> starts_at (nxt l) B.
Proof. induction A as [|a A IH]; intros l B; cbn [app chain]; [tauto|]. intros [_ H]. eauto. Qed.

(* the coordinates after an event of the log are those where the rest of the log starts *)
Lemma log_next fs A l B : log_ok fs -> locate_files fs = A ++ l :: B -> log_from (fst (nxt l)) (snd (nxt l)) (locate_files fs) = B.
Proof.
  intros (H1 & H2 & _) E. destruct B as [|x B].
  - apply log_from_none. rewrite <- surjective_pairing. now apply (files_last fs H1 H2 A).
  - pose proof (files_chain fs H1) as [Hc _]. rewrite E in Hc. apply chain_app in Hc. cbn [starts_at] in Hc. rewrite <- Hc. unfold key. cbn [fst snd].
    pose proof (files_NoDup fs H1 H2) as Hnd. rewrite E in *. replace (A ++ l :: x :: B) with ((A ++ [l]) ++ x :: B) in * by now rewrite <- app_assoc.
    now apply log_from_split.
Qed.

Lemma locate_end f es : Forall (fun e => 0 < en_size e) es -> forall p l, In l (locate f p es) -> 0 < lo_end l.
Proof.
  induction 1 as [|e es He Hes IH]; intros p l Hl; cbn [locate In] in Hl; [tauto|]. destruct Hl as [<-|Hl]; [cbn; lia|eauto].
Qed.
Lemma locate_entry f es : forall p l, In l (locate f p es) -> exists e, In e es /\ lo_event l = en_event e.
Proof.
  induction es as [|e es IH]; intros p l Hl; cbn [locate In] in Hl; [tauto|].
  destruct Hl as [<-|Hl]; [exists e; split; [now left|reflexivity]|]. destruct (IH _ _ Hl) as (x & A & B). exists x. split; [now right|exact B].
Qed.
Lemma files_events fs : files_ok fs -> forall l, In l (locate_files fs) ->
  0 < lo_end l /\ (forall r, lo_event l = EvRotate r -> ro_pos r = 4).
Proof.
  induction fs as [|f fs IH]; intros Hf l Hl; [destruct Hl|].
  pose proof (files_sizes f fs Hf) as Hsz. cbn [files_ok locate_files] in *. destruct Hf as [H1 H2]. apply in_app_iff in Hl.
  destruct Hl as [Hl|Hl]; [|auto]. split; [now apply (locate_end (bf_name f) _ Hsz 4)|]. intros r Er.
  destruct (locate_entry _ _ _ _ Hl) as (e & He & E). rewrite Er in E. destruct fs as [|g fs].
  - rewrite Forall_forall in H1. apply H1 in He. destruct He as [_ He]. rewrite <- E in He. discriminate.
  - destruct H1 as (es & size & h & Ee & H1 & _). rewrite Ee in He. apply in_app_iff in He. destruct He as [He|[<-|[]]].
    + rewrite Forall_forall in H1. apply H1 in He. destruct He as [_ He]. rewrite <- E in He. discriminate.
    + cbn in E. injection E as ->. reflexivity.
Qed.

Definition tmap (l : located) : Prop := is_table_map (lo_event l) = true.
Definition not_after_map (pre : list located) : Prop := forall a x, pre = a ++ [x] -> is_table_map (lo_event x) = false.

(* one connection, event by event *)
Lemma sends_spec bl fs : log_ok fs -> forall f p tm todo es k, sends f p tm todo es k -> forall A pre maps c c',
  locate_files fs = A ++ pre ++ maps ++ todo -> Forall tmap maps -> not_after_map pre -> (tm = false -> maps = []) ->
  log_from (o_file (c_opts c)) (o_pos (c_opts c)) (locate_files fs) = maps ++ todo ->
  o_file (c_opts c) = f -> (tm = false -> o_pos (c_opts c) = p) -> o_pos (c_opts c) < 4294967296 -> starts_at (f, p) todo ->
  commit_all bl c es = Ok c' ->
  exists pre2 maps2, pre ++ maps ++ firstn k todo = pre2 ++ maps2 /\ Forall tmap maps2 /\ not_after_map pre2 /\
    o_pos (c_opts c') < 4294967296 /\
    log_from (o_file (c_opts c')) (o_pos (c_opts c')) (locate_files fs) = maps2 ++ skipn k todo.
Proof.
  intros Hok f p tm todo es k H. induction H as [f p tm todo|f p tm l todo es k H IH|f p tm todo h e es k Hn Hr H IH|f p todo h es k H IH|f p todo h n es k Hn H IH];
    intros A pre maps c c' Elog Hmaps Hpre Htm Hfrom Hfile Hcoord Hlt Hst Hc; cbn [commit_all] in Hc.
  - injection Hc as <-. exists pre, maps. cbn [firstn skipn]. rewrite app_nil_r. auto.
  - unfold lo_hev in Hc.
    destruct (commit bl c _ _) as [c1|e| |] eqn:E1 in Hc; cbn [rbind] in Hc; try discriminate.
    apply commit_coords in E1. unfold announced_file, announced_pos in E1. cbn [fst snd h_next] in E1.
    assert (Hl : In l (locate_files fs)) by (rewrite Elog; rewrite !in_app_iff; cbn [In]; auto).
    assert (Hend : lo_end l < 4294967296).
    { destruct Hok as (_ & _ & Hb). rewrite Forall_forall in Hb. now apply Hb. }
    destruct (files_events fs (proj1 Hok) l Hl) as [Hpos Hrot].
    assert (Hnst : starts_at (nxt l) todo).
    { pose proof (files_chain fs (proj1 Hok)) as [Hch _]. rewrite Elog in Hch.
      rewrite !app_assoc in Hch. now apply chain_app in Hch. }
    assert (Hlf : lo_file l = f) by (cbn [starts_at] in Hst; unfold key in Hst; congruence).
    destruct (is_table_map (lo_event l)) eqn:Et.
    + destruct (lo_event l) eqn:El; try discriminate. destruct E1 as [E1 E2].
      destruct (IH A pre (maps ++ [l]) c1 c') as (pre2 & maps2 & I1 & I2 & I3 & I4 & I5); auto; try discriminate; try congruence.
      * rewrite <- app_assoc. exact Elog.
      * apply Forall_app. split; [exact Hmaps|]. repeat constructor. unfold tmap. now rewrite El.
      * rewrite E1, E2, <- app_assoc. exact Hfrom.
      * unfold nxt in Hnst. now rewrite El in Hnst.
      * exists pre2, maps2. cbn [firstn skipn]. rewrite <- app_assoc in I1. auto.
    + assert (Hnx : o_file (c_opts c1) = fst (nxt l) /\ o_pos (c_opts c1) = snd (nxt l) /\ snd (nxt l) < 4294967296).
      { unfold nxt. destruct (lo_event l) eqn:El; cbn [is_rotate is_table_map fst snd] in *; try discriminate;
          try (destruct (N.ltb_spec 0 (lo_end l)) as [_|Hx]; [|lia]; destruct E1 as [E1 E2]; repeat split; auto; congruence).
        destruct E1 as [E1 E2]. rewrite (Hrot _ eq_refl) in *. rewrite E2. repeat split; auto. }
      destruct Hnx as (N1 & N2 & N3).
      assert (Enx : nxt l = (match lo_event l with EvRotate r => ro_file r | _ => lo_file l end, match lo_event l with EvRotate r => ro_pos r | _ => lo_end l end)).
      { unfold nxt. now destruct (lo_event l). }
      assert (Elog2 : locate_files fs = (A ++ pre ++ maps) ++ l :: todo) by (rewrite Elog, <- !app_assoc; reflexivity).
      destruct (IH A (pre ++ maps ++ [l]) [] c1 c') as (pre2 & maps2 & I1 & I2 & I3 & I4 & I5); auto.
      * rewrite Elog, <- !app_assoc. reflexivity.
      * intros a x Ex. rewrite app_assoc in Ex. apply app_inj_tail in Ex. destruct Ex as [_ <-]. exact Et.
      * rewrite N1, N2. cbn [app]. now apply (log_next fs _ _ _ Hok Elog2).
      * rewrite N1, Enx. reflexivity.
      * intros _. rewrite N2, Enx. reflexivity.
      * lia.
      * rewrite <- Enx. exact Hnst.
      * exists pre2, maps2. cbn [firstn skipn]. rewrite <- !app_assoc in I1. cbn [app] in I1. auto.
  - destruct (commit bl c h e) as [c1|er| |] eqn:E1; cbn [rbind] in Hc; try discriminate.
    apply commit_coords in E1. unfold announced_file, announced_pos in E1. cbn [fst snd] in E1. rewrite Hn in E1. cbn [N.ltb N.compare] in E1.
    assert (o_file (c_opts c1) = o_file (c_opts c) /\ o_pos (c_opts c1) = o_pos (c_opts c)) as [E2 E3] by (destruct e; try discriminate; exact E1).
    apply (IH A pre maps c1 c'); auto; try congruence; rewrite ?E2, ?E3; auto.
  - destruct (commit bl c h _) as [c1|er| |] eqn:E1; cbn [rbind] in Hc; try discriminate.
    apply commit_coords in E1. cbn in E1. destruct E1 as [E1 E2]. specialize (Hcoord eq_refl).
    rewrite Hcoord in Hlt. rewrite N.mod_small in E2 by exact Hlt.
    apply (IH A pre maps c1 c'); auto; try congruence; rewrite ?E1, ?E2, <- ?Hfile, <- ?Hcoord; auto.
  - destruct (commit bl c h _) as [c1|er| |] eqn:E1; cbn [rbind] in Hc; try discriminate.
    apply commit_coords in E1. unfold announced_file, announced_pos in E1. cbn [fst snd is_rotate] in E1. destruct E1 as [E1 E2].
    specialize (Hcoord eq_refl).
    assert (E3 : o_pos (c_opts c1) = o_pos (c_opts c)) by (destruct (N.ltb_spec 0 (h_next h)); congruence).
    apply (IH A pre maps c1 c'); auto; try congruence; rewrite ?E1, ?E3; auto.
Qed.

(* one connection *)
Theorem session_spec bl fs f p c es k c' : log_ok fs -> o_file (c_opts c) = f -> o_pos (c_opts c) = p -> p < 4294967296 ->
  sends f p false (log_from f p (locate_files fs)) es k -> commit_all bl c es = Ok c' ->
  exists pre maps, firstn k (log_from f p (locate_files fs)) = pre ++ maps /\ Forall tmap maps /\ not_after_map pre /\
    o_pos (c_opts c') < 4294967296 /\
    log_from (o_file (c_opts c')) (o_pos (c_opts c')) (locate_files fs) = maps ++ skipn k (log_from f p (locate_files fs)).
Proof.
  intros Hok Hf Hp Hlt Hs Hc. destruct (log_from_suffix f p (locate_files fs)) as [A E].
  apply (sends_spec bl fs Hok f p false _ es k Hs A [] [] c c'); auto; try congruence.
  - intros a x Ex. destruct a; discriminate.
  - cbn [app]. rewrite Hf, Hp. reflexivity.
  - destruct (log_from f p (locate_files fs)) as [|x r] eqn:El; [exact I|]. apply log_from_head in El. unfold starts_at, key. destruct El. congruence.
Qed.

Definition is_map_l (l : located) : bool := is_table_map (lo_event l).
Lemma filter_tmaps maps : Forall tmap maps -> filter (fun l => negb (is_map_l l)) maps = [].
Proof. induction 1 as [|m maps Hm H IH]; [reflexivity|]. cbn [filter]. unfold is_map_l. rewrite Hm. exact IH. Qed.

Theorem reads_spec bl fs : log_ok fs -> forall f p ds f2 p2, reads bl (locate_files fs) f p ds f2 p2 -> p < 4294967296 ->
  filter (fun l => negb (is_map_l l)) (log_from f p (locate_files fs)) =
  filter (fun l => negb (is_map_l l)) (concat ds) ++ filter (fun l => negb (is_map_l l)) (log_from f2 p2 (locate_files fs)).
Proof.
  intros Hok f p ds f2 p2 H. induction H as [f p|f p c es k c' ds f2 p2 Hf Hp Hs Hc H IH]; intros Hlt; [reflexivity|].
  destruct (session_spec bl fs f p c es k c' Hok Hf Hp Hlt Hs Hc) as (pre & maps & E1 & E2 & E3 & E4 & E5).
  specialize (IH E4). cbn [concat]. rewrite filter_app, <- app_assoc, <- IH, E5, filter_app, (filter_tmaps maps E2). cbn [app].
  rewrite <- filter_app, firstn_skipn. reflexivity.
Qed.

(* ---- table maps ---- *)
(* a part of the log that does not start in the middle of a run of table maps *)
Definition clean (log part : list located) : Prop := exists A, log = A ++ part /\ not_after_map A.

Lemma clean_step bl fs f p c es k c' : log_ok fs -> o_file (c_opts c) = f -> o_pos (c_opts c) = p -> p < 4294967296 ->
  sends f p false (log_from f p (locate_files fs)) es k -> commit_all bl c es = Ok c' -> clean (locate_files fs) (log_from f p (locate_files fs)) ->
  o_pos (c_opts c') < 4294967296 /\
  clean (locate_files fs) (log_from (o_file (c_opts c')) (o_pos (c_opts c')) (locate_files fs)).
Proof.
  intros Hok Hf Hp Hlt Hs Hc (A & EA & HA).
  destruct (session_spec bl fs f p c es k c' Hok Hf Hp Hlt Hs Hc) as (pre & maps & E1 & E2 & E3 & E4 & E5). split; [exact E4|].
  exists (A ++ pre). split.
  - rewrite E5. rewrite EA at 1. rewrite <- (firstn_skipn k (log_from f p (locate_files fs))) at 1. rewrite E1, <- !app_assoc. reflexivity.
  - intros a x Ex. destruct (exists_last (l := x :: rev pre)) as (z & y & _); [discriminate|]. clear z y.
    destruct pre as [|q pre] using rev_ind; [rewrite app_nil_r in Ex; eauto|]. clear IHpre.
    rewrite app_assoc in Ex. apply app_inj_tail in Ex. destruct Ex as [_ <-]. eapply E3. reflexivity.
Qed.
Lemma clean_inside log part : maps_adjacent log -> clean log part -> maps_inside part.
Proof.
  intros Hadj (A & E & HA) a x b t Ep Ht. destruct (Hadj (A ++ a) x b t) as (a' & ms & m & E1 & Hms & Hm & Hid); auto.
  { rewrite E, Ep, <- app_assoc. reflexivity. }
  (* the run [ms] of table maps cannot reach into A, unless it is empty there *)
  assert (exists ms1, a = ms1 ++ ms) as [ms1 ->].
  { clear - E1 HA Hms. revert a E1. induction ms as [|y ms IH] using rev_ind; intros a E1; [exists a; now rewrite app_nil_r|].
    apply Forall_app in Hms. destruct Hms as [Hms Hy]. destruct a as [|z a _] using rev_ind.
    - rewrite app_nil_r in E1. rewrite app_assoc in E1. specialize (HA _ _ E1). apply Forall_cons_iff in Hy. destruct Hy as [Hy _]. unfold tmap in Hy. congruence.
    - rewrite !app_assoc in E1. apply app_inj_tail in E1. destruct E1 as [E1 <-]. destruct (IH Hms a E1) as [ms1 ->]. exists ms1. now rewrite <- app_assoc. }
  exists m. split; [apply in_app_iff; now right|exact Hid].
Qed.
Theorem reads_clean bl fs : log_ok fs -> forall f p ds f2 p2, reads bl (locate_files fs) f p ds f2 p2 -> p < 4294967296 ->
  clean (locate_files fs) (log_from f p (locate_files fs)) -> clean (locate_files fs) (log_from f2 p2 (locate_files fs)).
Proof.
  intros Hok f p ds f2 p2 H. induction H as [f p|f p c es k c' ds f2 p2 Hf Hp Hs Hc H IH]; intros Hlt Hcl; [exact Hcl|].
  destruct (clean_step bl fs f p c es k c' Hok Hf Hp Hlt Hs Hc Hcl) as [H1 H2]. auto.
Qed.

(* every crash point between two events is possible *)
Lemma sends_prefix a : forall f p tm b, sends f p tm (a ++ b) (map lo_hev a) (length a).
Proof. induction a as [|l a IH]; intros f p tm b; cbn [app map length]; constructor. apply IH. Qed.
Lemma commit_all_position bl es : forall c, o_strategy (c_opts c) = FromPosition -> exists c', commit_all bl c es = Ok c'.
Proof.
  induction es as [|[h e] es IH]; intros c Hc; cbn [commit_all]; [eauto|]. unfold commit, update_gtid_position. rewrite Hc. cbn [strategy_eqb negb rbind].
  apply IH. unfold update_binlog_position. destruct e; try (destruct (0 <? h_next h)); exact Hc.
Qed.
Lemma map_run (a : list located) : exists a' ms, a = a' ++ ms /\ Forall tmap ms /\ not_after_map a'.
Proof.
  induction a as [|y a IH] using rev_ind.
  - exists [], []. split; [reflexivity|]. split; [constructor|]. intros z x E. destruct z; discriminate.
  - destruct (is_table_map (lo_event y)) eqn:E.
    + destruct IH as (a' & ms & -> & F & N). exists a', (ms ++ [y]). split; [now rewrite app_assoc|]. split; [apply Forall_app; repeat constructor; auto|exact N].
    + exists (a ++ [y]), []. split; [now rewrite app_nil_r|]. split; [constructor|]. intros z x Ez. apply app_inj_tail in Ez. destruct Ez as [_ <-]. exact E.
Qed.
Theorem adjacent_needed bl fs f p : log_ok fs -> p < 4294967296 -> log_from f p (locate_files fs) = locate_files fs ->
  (forall ds f2 p2, reads bl (locate_files fs) f p ds f2 p2 -> maps_inside (log_from f2 p2 (locate_files fs))) -> maps_adjacent (locate_files fs).
Proof.
  intros Hok Hlt Hst H a x b t E Ht. destruct (map_run a) as (a' & ms & -> & F & N).
  assert (I : maps_inside (ms ++ x :: b)).
  { destruct a' as [|y a' _] using rev_ind.
    - assert (X := H [] f p (reads_nil _ _ _ _)). rewrite Hst, E in X. exact X.
    - set (c := client_new (from_position f p)). set (A := a' ++ [y]) in *.
      destruct (commit_all_position bl (map lo_hev A) c eq_refl) as (c' & Ec).
      assert (S : sends f p false (log_from f p (locate_files fs)) (map lo_hev A) (length A)) by (rewrite Hst, E, <- app_assoc; apply sends_prefix).
      destruct (session_spec bl fs f p c (map lo_hev A) (length A) c' Hok eq_refl eq_refl Hlt S Ec) as (pre & maps & E1 & E2 & E3 & E4 & E5).
      rewrite Hst, E, <- app_assoc in E1, E5. rewrite firstn_app, firstn_all, Nat.sub_diag, app_nil_r in E1.
      rewrite skipn_app, skipn_all, Nat.sub_diag in E5. cbn [skipn app] in E5.
      assert (maps = []) as ->.
      { destruct maps as [|z maps _] using rev_ind; [reflexivity|]. apply Forall_app in E2. destruct E2 as [_ E2]. apply Forall_cons_iff in E2. destruct E2 as [E2 _].
        unfold A in E1. rewrite app_assoc in E1. apply app_inj_tail in E1. destruct E1 as [_ <-]. specialize (N a' y eq_refl). unfold tmap in E2. congruence. }
      cbn [app] in E5. rewrite <- E5. rewrite <- app_assoc in E. rewrite <- E. eapply H. eapply (reads_cons _ _ f p c (map lo_hev A) (length A) c' []); eauto. constructor. }
  destruct (I ms x b t eq_refl Ht) as (m & Hm & Hid). exists a', ms, m. auto.
Qed.
