(* commit() over arbitrary event sequences (C12, C13). *)
From Coq Require Import Strings.String.
From Verif Require Import Base.Tac Base.Bytes Base.Text Base.Res Base.Str Model.Gtid Model.GtidMaria Model.Events Model.Client
  Spec.GtidSpec Spec.GtidMariaSpec Spec.ClientSpec Spec.StreamSpec Proofs.GtidProofs Proofs.GtidSetProofs Proofs.GtidMariaProofs Proofs.ClientProofs.
Local Open Scope N_scope.

Lemma snoc_split {A} (es : list A) y p z c : es ++ [y] = p ++ z :: c <-> (c = [] /\ p = es /\ z = y) \/ exists c', c = c' ++ [y] /\ es = p ++ z :: c'.
Proof.
  split.
  - destruct c as [|w c] using rev_ind; intros E.
    + apply app_inj_tail in E. left. intuition congruence.
    + clear IHc. replace (p ++ z :: c ++ [w]) with ((p ++ z :: c) ++ [w]) in E by now rewrite <- app_assoc. apply app_inj_tail in E. right. exists c. intuition congruence.
  - intros [(-> & -> & ->)|(c' & -> & ->)]; [reflexivity|]. now rewrite <- app_assoc.
Qed.
Lemma nil_split {A} (p : list A) z c : [] = p ++ z :: c -> False.
Proof. destruct p; discriminate. Qed.
Lemma begin_not_end e : is_begin e = true -> is_end e = false.
Proof. destruct e; try discriminate. cbn [is_begin is_end]. destruct (text_eqb_spec (q_sql q) (tx "BEGIN")) as [->|]; [reflexivity|discriminate]. Qed.
Lemma in_block_nil : ~ in_block [].
Proof. intros (a & b & c & E & _). exact (nil_split _ _ _ E). Qed.
Lemma in_block_snoc es y : in_block (es ++ [y]) <-> is_begin (snd y) = true \/ (in_block es /\ is_end (snd y) = false).
Proof.
  unfold in_block. split.
  - intros (a & b & c & E & B & F). apply snoc_split in E. destruct E as [(-> & -> & ->)|(c' & -> & ->)]; [now left|].
    apply Forall_app in F. destruct F as [F1 F2]. right. split; [eauto 8|now apply Forall_cons_iff in F2].
  - intros [B|[(a & b & c & E & B & F) G]]; [exists es, y, []; auto|]. exists a, b, (c ++ [y]). split; [subst es; now rewrite <- app_assoc|].
    split; [exact B|]. apply Forall_app. auto.
Qed.
Lemma mysql_current_nil g : ~ mysql_current [] g.
Proof. intros (a & h & m & b & E & _). exact (nil_split _ _ _ E). Qed.
Lemma mysql_current_snoc es y g : mysql_current (es ++ [y]) g <->
  match snd y with EvMySqlGtid m => me_gtid m = g | _ => mysql_current es g end.
Proof.
  unfold mysql_current. split.
  - intros (a & h & m & b & E & <- & F). apply snoc_split in E. destruct E as [(-> & -> & <-)|(c' & -> & ->)]; [reflexivity|].
    apply Forall_app in F. destruct F as [F1 F2]. apply Forall_cons_iff in F2. destruct F2 as [F2 _]. destruct (snd y); try discriminate; eauto 8.
  - intros H. assert (D : (exists h m, y = (h, EvMySqlGtid m)) \/ is_mysql_gtid (snd y) = false) by (destruct y as [h e]; destruct e; cbn [snd is_mysql_gtid]; eauto).
    destruct D as [(h & m & ->)|D].
    + cbn [snd] in H. exists es, h, m, []. auto.
    + assert (exists a h m b, es = a ++ (h, EvMySqlGtid m) :: b /\ me_gtid m = g /\ Forall (fun x => is_mysql_gtid (snd x) = false) b) as (a & h & m & b & -> & E & F)
        by (destruct (snd y); first [exact H|discriminate D]).
      exists a, h, m, (b ++ [y]). split; [now rewrite <- app_assoc|]. split; [exact E|]. apply Forall_app. auto.
Qed.
Lemma maria_current_nil g : ~ maria_current [] g.
Proof. intros (a & h & m & b & E & _). exact (nil_split _ _ _ E). Qed.
Lemma maria_current_snoc es y g : maria_current (es ++ [y]) g <->
  match snd y with EvMariaGtid m => ma_gtid m = g | _ => maria_current es g end.
Proof.
  unfold maria_current. split.
  - intros (a & h & m & b & E & <- & F). apply snoc_split in E. destruct E as [(-> & -> & <-)|(c' & -> & ->)]; [reflexivity|].
    apply Forall_app in F. destruct F as [F1 F2]. apply Forall_cons_iff in F2. destruct F2 as [F2 _]. destruct (snd y); try discriminate; eauto 8.
  - intros H. assert (D : (exists h m, y = (h, EvMariaGtid m)) \/ is_maria_gtid (snd y) = false) by (destruct y as [h e]; destruct e; cbn [snd is_maria_gtid]; eauto).
    destruct D as [(h & m & ->)|D].
    + cbn [snd] in H. exists es, h, m, []. auto.
    + assert (exists a h m b, es = a ++ (h, EvMariaGtid m) :: b /\ ma_gtid m = g /\ Forall (fun x => is_maria_gtid (snd x) = false) b) as (a & h & m & b & -> & E & F)
        by (destruct (snd y); first [exact H|discriminate D]).
      exists a, h, m, (b ++ [y]). split; [now rewrite <- app_assoc|]. split; [exact E|]. apply Forall_app. auto.
Qed.

(* one step, by kind of event *)
Inductive kind (c : client) (e : event) : Prop :=
| KMysql m : e = EvMySqlGtid m -> kind c e
| KMaria m : e = EvMariaGtid m -> kind c e
| KBegin : is_begin e = true -> kind c e
| KSave : is_end e = true \/ (is_statement e = true /\ c_txn c = false) -> kind c e
| KNone : is_mysql_gtid e = false -> is_maria_gtid e = false -> is_begin e = false -> is_end e = false -> (is_statement e = true -> c_txn c = true) -> kind c e.
Lemma kind_of c e : kind c e.
Proof.
  destruct (is_mysql_gtid e) eqn:E1; [destruct e; try discriminate; eapply KMysql; reflexivity|].
  destruct (is_maria_gtid e) eqn:E2; [destruct e; try discriminate; eapply KMaria; reflexivity|].
  destruct (is_begin e) eqn:E3; [now apply KBegin|]. destruct (is_end e) eqn:E4; [apply KSave; now left|].
  destruct (is_statement e) eqn:E5, (c_txn c) eqn:E6; try (apply KSave; now right); apply KNone; auto; congruence.
Qed.
Lemma none_step bl c h e : mode c -> is_mysql_gtid e = false -> is_maria_gtid e = false -> is_begin e = false -> is_end e = false ->
  (is_statement e = true -> c_txn c = true) -> exists c', commit bl c h e = Ok c' /\ gst c' = gst c.
Proof.
  intros M E1 E2 E3 E4 E5. assert (E6 : is_gtid e = false) by (destruct e; try reflexivity; discriminate).
  destruct (is_statement e) eqn:S; [apply body_step; auto|]. apply data_step. unfold is_data. now rewrite E3, E4, E6, S.
Qed.
Lemma statement_not e : is_statement e = true -> is_begin e = false /\ is_end e = false /\ is_mysql_gtid e = false /\ is_maria_gtid e = false.
Proof.
  intros H. destruct e; try discriminate. cbn [is_statement] in H. destruct (q_sql q); [discriminate|]. apply andb_prop in H. destruct H as [A B].
  apply Bool.negb_true_iff in A, B. auto.
Qed.
Lemma end_not e : is_end e = true -> is_begin e = false /\ is_mysql_gtid e = false /\ is_maria_gtid e = false.
Proof.
  intros H. assert (is_begin e = false). { destruct (is_begin e) eqn:B; [|reflexivity]. apply begin_not_end in B. congruence. }
  destruct e; try discriminate; auto.
Qed.

(* what the client remembers after es *)
Definition remembers (es : list hev) (c : client) : Prop :=
  mode c /\ (c_txn c = true <-> in_block es) /\ (forall g, c_mysql c = Some g <-> mysql_current es g) /\ (forall g, c_maria c = Some g <-> maria_current es g).
Lemma remembers_nil c : mode c -> c_txn c = false -> c_mysql c = None -> c_maria c = None -> remembers [] c.
Proof.
  intros M T A B. split; [exact M|]. split; [|split].
  - split; intros H; [congruence|destruct (in_block_nil H)].
  - intros g. split; intros H; [congruence|destruct (mysql_current_nil _ H)].
  - intros g. split; intros H; [congruence|destruct (maria_current_nil _ H)].
Qed.
Lemma remembers_txn es c : remembers es c -> c_txn c = false <-> ~ in_block es.
Proof. intros (_ & T & _). rewrite <- T. destruct (c_txn c); split; congruence. Qed.
Lemma saves_kind es c e : remembers es c -> saves es e <-> is_end e = true \/ (is_statement e = true /\ c_txn c = false).
Proof. intros R. unfold saves. now rewrite (remembers_txn es c R). Qed.
Lemma current_same es y : is_mysql_gtid (snd y) = false -> forall g, mysql_current (es ++ [y]) g <-> mysql_current es g.
Proof. intros E g. rewrite mysql_current_snoc. destruct (snd y); try reflexivity. discriminate. Qed.
Lemma mcurrent_same es y : is_maria_gtid (snd y) = false -> forall g, maria_current (es ++ [y]) g <-> maria_current es g.
Proof. intros E g. rewrite maria_current_snoc. destruct (snd y); try reflexivity. discriminate. Qed.
Lemma remembers_step bl es c h e c' : remembers es c -> commit bl c h e = Ok c' -> remembers (es ++ [(h, e)]) c' /\
  (~ saves es e -> o_set (c_opts c') = o_set (c_opts c) /\ o_list (c_opts c') = o_list (c_opts c)) /\
  (saves es e -> exists c1, commit_gtid bl c = Ok c1 /\ o_set (c_opts c') = o_set (c_opts c1) /\ o_list (c_opts c') = o_list (c_opts c1)).
Proof.
  intros R E. assert (SK := saves_kind es c e R). destruct R as (M & T & A & B). unfold remembers. rewrite in_block_snoc. cbn [snd].
  assert (G : forall c2, commit bl c h e = Ok c2 -> c' = c2) by (intros; congruence).
  destruct (kind_of c e) as [m ->|m ->|K|K|K1 K2 K3 K4 K5].
  - destruct (gtid_step bl c h m M) as (c2 & X & Y). rewrite (G _ X). gstd Y. split.
    + split; [unfold mode in *; congruence|]. split; [|split].
      * cbn [is_begin is_end]. rewrite H2, T. intuition congruence.
      * intros g. rewrite mysql_current_snoc. cbn [snd]. rewrite H4. split; congruence.
      * intros g. rewrite mcurrent_same by reflexivity. rewrite H3. apply B.
    + split; [intros _; split; congruence|]. rewrite SK. cbn [is_end is_statement]. intros [X1|[X1 _]]; discriminate.
  - destruct (mgtid_step bl c h m M) as (c2 & X & Y). rewrite (G _ X). gstd Y. split.
    + split; [unfold mode in *; congruence|]. split; [|split].
      * cbn [is_begin is_end]. rewrite H2, T. intuition congruence.
      * intros g. rewrite current_same by reflexivity. rewrite H4. apply A.
      * intros g. rewrite maria_current_snoc. cbn [snd]. rewrite H3. split; congruence.
    + split; [intros _; split; congruence|]. rewrite SK. cbn [is_end is_statement]. intros [X1|[X1 _]]; discriminate.
  - destruct (begin_step bl c h e M K) as (c2 & X & Y). rewrite (G _ X). gstd Y. assert (N := begin_not_end e K).
    assert (Q : is_mysql_gtid e = false /\ is_maria_gtid e = false) by (destruct e; try discriminate; auto). destruct Q as [Q1 Q2]. split.
    + split; [unfold mode in *; congruence|]. split; [|split].
      * rewrite H2, K. intuition congruence.
      * intros g. rewrite current_same by exact Q1. rewrite H4. apply A.
      * intros g. rewrite mcurrent_same by exact Q2. rewrite H3. apply B.
    + split; [intros _; split; congruence|]. rewrite SK. intros [X1|[X1 _]]; [congruence|]. apply statement_not in X1. destruct X1 as [X1 _]. congruence.
  - assert (U : update_gtid_position bl c e = commit_gtid bl c) by (destruct K as [K|[K1 K2]]; [now apply end_update|now apply statement_update]).
    unfold commit in E. rewrite U in E. destruct (commit_gtid bl c) as [c1| | |] eqn:Ec; cbn [rbind] in E; try discriminate. injection E as <-.
    assert (P := position_gst c1 h e). gstd P.
    assert (F : o_strategy (c_opts c1) = o_strategy (c_opts c) /\ c_txn c1 = false /\ c_mysql c1 = c_mysql c /\ c_maria c1 = c_maria c).
    { revert Ec. unfold commit_gtid. set (o := match c_maria c with Some _ => _ | None => _ end).
      assert (o_strategy o = o_strategy (c_opts c)) by (unfold o; destruct (c_maria c), (o_list (c_opts c)); reflexivity).
      destruct (c_mysql c) as [g|] eqn:Em, (o_set o) as [s|]; cbn [rbind]; try (intros X; injection X as <-; auto; fail).
      destruct (gtid_set_add bl s g) as [[b s']| | |]; cbn [rbind]; try discriminate. intros X; injection X as <-; auto. }
    destruct F as (F1 & F2 & F3 & F4).
    assert (Q : is_begin e = false /\ is_mysql_gtid e = false /\ is_maria_gtid e = false) by (destruct K as [K|[K _]]; [now apply end_not|apply statement_not in K; tauto]).
    destruct Q as (Q1 & Q2 & Q3). split.
    + split; [unfold mode in *; congruence|]. split; [|split].
      * rewrite H2, F2, Q1. split; [discriminate|]. intros [X|[X Y]]; [discriminate|]. apply T in X. destruct K as [K|[_ K]]; congruence.
      * intros g. rewrite current_same by exact Q2. rewrite H4, F3. apply A.
      * intros g. rewrite mcurrent_same by exact Q3. rewrite H3, F4. apply B.
    + split; [intros X; destruct X; now apply SK|]. intros _. exists c1. auto.
  - destruct (none_step bl c h e M K1 K2 K3 K4 K5) as (c2 & X & Y). rewrite (G _ X). gstd Y. split.
    + split; [unfold mode in *; congruence|]. split; [|split].
      * rewrite H2, K3, K4, T. intuition congruence.
      * intros g. rewrite current_same by exact K1. rewrite H4. apply A.
      * intros g. rewrite mcurrent_same by exact K2. rewrite H3. apply B.
    + split; [intros _; split; congruence|]. rewrite SK. intros [X1|[X1 X2]]; [congruence|]. apply K5 in X1. congruence.
Qed.
Lemma saves_dec es c e : remembers es c -> saves es e \/ ~ saves es e.
Proof. intros R. rewrite (saves_kind es c e R). destruct (is_end e), (is_statement e), (c_txn c); intuition congruence. Qed.
Lemma commit_cases bl es c h e : remembers es c -> ~ saves es e -> exists c', commit bl c h e = Ok c'.
Proof.
  intros R N. rewrite (saves_kind es c e R) in N. destruct R as (M & _). destruct (kind_of c e) as [m ->|m ->|K|K|K1 K2 K3 K4 K5].
  - destruct (gtid_step bl c h m M) as (c2 & X & _). eauto.
  - destruct (mgtid_step bl c h m M) as (c2 & X & _). eauto.
  - destruct (begin_step bl c h e M K) as (c2 & X & _). eauto.
  - destruct (N K).
  - destruct (none_step bl c h e M K1 K2 K3 K4 K5) as (c2 & X & _). eauto.
Qed.
Lemma commit_saving bl es c h e c1 : remembers es c -> saves es e -> commit_gtid bl c = Ok c1 -> exists c', commit bl c h e = Ok c'.
Proof.
  intros R S E. apply (saves_kind es c e R) in S. destruct R as (M & _). unfold commit.
  assert (U : update_gtid_position bl c e = commit_gtid bl c) by (destruct S as [K|[K1 K2]]; [now apply end_update|now apply statement_update]).
  rewrite U, E. cbn [rbind]. eauto.
Qed.
Lemma mysql_saved_snoc es y g : mysql_saved (es ++ [y]) g <-> mysql_saved es g \/ (saves es (snd y) /\ mysql_current es g).
Proof.
  unfold mysql_saved. split.
  - intros (p & z & c & E & S & C). apply snoc_split in E. destruct E as [(-> & -> & ->)|(c' & -> & ->)]; [now right|left; eauto 8].
  - intros [(p & z & c & -> & S & C)|[S C]]; [exists p, z, (c ++ [y])|exists es, y, []]; rewrite <- ?app_assoc; auto.
Qed.

Theorem mysql_any_stream bl c s : mode c -> c_txn c = false -> c_mysql c = None -> c_maria c = None -> o_set (c_opts c) = Some s -> set_ok s ->
  forall es, Forall (fun x => forall m, snd x = EvMySqlGtid m -> stream_gtid_ok (me_gtid m)) es ->
  exists c' s', commit_all bl c es = Ok c' /\ remembers es c' /\ o_set (c_opts c') = Some s' /\ set_ok s' /\
    forall d n, set_has s' d n <-> set_has s d n \/ exists g, mysql_saved es g /\ udata (g_source g) = d /\ g_txn g = n.
Proof.
  intros M T A B Hs Hok. induction es as [|[h e] es IH] using rev_ind; intros Hg.
  - exists c, s. split; [reflexivity|]. split; [now apply remembers_nil|]. split; [exact Hs|]. split; [exact Hok|]. intros d n. split; [now left|].
    intros [H|(g & (p & y & c' & E & _) & _)]; [exact H|destruct (nil_split _ _ _ E)].
  - apply Forall_app in Hg. destruct Hg as [Hg Hy]. destruct (IH Hg) as (c1 & s1 & E1 & R1 & S1 & O1 & H1). rewrite commit_all_app, E1. cbn [rbind commit_all].
    destruct (saves_dec es c1 e R1) as [S|N].
    + assert (X : exists c2 s2, commit_gtid bl c1 = Ok c2 /\ o_set (c_opts c2) = Some s2 /\ set_ok s2 /\
        forall d n, set_has s2 d n <-> set_has s1 d n \/ exists g, mysql_current es g /\ udata (g_source g) = d /\ g_txn g = n).
      { destruct R1 as (_ & _ & RA & _). destruct (c_mysql c1) as [g|] eqn:Eg.
        - assert (Cg := proj1 (RA g) eq_refl).
          assert (Og : stream_gtid_ok g). { destruct Cg as (a & h' & m & b & -> & <- & _). apply Forall_app in Hg. destruct Hg as [_ Hg]. apply Forall_cons_iff in Hg. destruct Hg as [Hg _]. now apply Hg. }
          destruct (stream_gtid_uuid g Og) as [U1 U2]. destruct (gtid_set_add_spec bl s1 g O1 U1 U2) as (b & s2 & us & us' & Hadd & Ok2 & Hh & _).
          destruct (commit_gtid_mysql bl c1 g s1 b s2 Eg S1 Hadd) as (c2 & C1 & _ & C3 & _). exists c2, s2. split; [exact C1|]. split; [exact C3|]. split; [exact Ok2|].
          intros d n. rewrite Hh. split; (intros [Q|Q]; [now left|right]).
          + destruct Q as [-> ->]. exists g. auto.
          + destruct Q as (g' & Q1 & <- & <-). apply RA in Q1. injection Q1 as <-. auto.
        - exists (Client (let o := c_opts c1 in match c_maria c1, o_list o with Some g, Some l => with_list o (Some (snd (gtid_list_add l g))) | _, _ => o end) false (c_maria c1) (c_mysql c1)), s1.
          split; [unfold commit_gtid; rewrite Eg; reflexivity|]. split; [cbn [c_opts]; destruct (c_maria c1), (o_list (c_opts c1)); exact S1|]. split; [exact O1|].
          intros d n. split; [now left|]. intros [Q|(g & Q & _)]; [exact Q|]. apply RA in Q. discriminate. }
      destruct X as (c2 & s2 & C1 & C2 & C3 & C4). destruct (commit_saving bl es c1 h e c2 R1 S C1) as (c' & Ec). rewrite Ec. cbn [rbind].
      destruct (remembers_step bl es c1 h e c' R1 Ec) as (R & _ & F). destruct (F S) as (c3 & F1 & F2 & _). rewrite C1 in F1. injection F1 as <-.
      exists c', s2. split; [reflexivity|]. split; [exact R|]. split; [congruence|]. split; [exact C3|]. intros d n. rewrite C4, H1.
      split.
      * intros [[Q|(g & Q & Q')]|(g & Q & Q')]; [now left| |]; right; exists g; rewrite mysql_saved_snoc; auto.
      * intros [Q|(g & Q & Q')]; [auto|]. apply mysql_saved_snoc in Q. destruct Q as [Q|[_ Q]]; [left; right|right]; eauto.
    + destruct (commit_cases bl es c1 h e R1 N) as (c' & Ec). rewrite Ec. cbn [rbind].
      destruct (remembers_step bl es c1 h e c' R1 Ec) as (R & F & _). destruct (F N) as [F1 _].
      exists c', s1. split; [reflexivity|]. split; [exact R|]. split; [congruence|]. split; [exact O1|]. intros d n. rewrite H1.
      split; (intros [Q|(g & Q & Q')]; [now left|right; exists g; split; [|exact Q']]).
      * apply mysql_saved_snoc. now left.
      * apply mysql_saved_snoc in Q. cbn [snd] in Q. tauto.
Qed.

Lemma maria_never_snoc es y d : maria_never_saved (es ++ [y]) d <->
  maria_never_saved es d /\ (forall g, saves es (snd y) -> maria_current es g -> mg_domain g <> d).
Proof.
  unfold maria_never_saved. split.
  - intros H. split; [intros p z c g ->; apply (H p z (c ++ [y])); now rewrite <- app_assoc|]. intros g. now apply (H es y []).
  - intros [H1 H2] p z c g E. apply snoc_split in E. destruct E as [(-> & -> & ->)|(c' & -> & ->)]; [apply H2|now apply (H1 p z c')].
Qed.
Lemma maria_last_snoc es y g : maria_saved_last (es ++ [y]) g <->
  (saves es (snd y) /\ maria_current es g) \/
  (maria_saved_last es g /\ forall g', saves es (snd y) -> maria_current es g' -> mg_domain g' <> mg_domain g).
Proof.
  unfold maria_saved_last. split.
  - intros (p & z & c & E & S & C & H). apply snoc_split in E. destruct E as [(-> & -> & ->)|(c' & -> & ->)]; [now left|]. right. split.
    + exists p, z, c'. split; [reflexivity|]. split; [exact S|]. split; [exact C|]. intros c1 y' c2 g' ->. apply (H c1 y' (c2 ++ [y])). now rewrite <- app_assoc.
    + intros g'. now apply (H c' y []).
  - intros [[S C]|[(p & z & c & -> & S & C & H) L]].
    + exists es, y, []. split; [reflexivity|]. split; [exact S|]. split; [exact C|]. intros c1 y' c2 g' E. destruct (nil_split _ _ _ E).
    + exists p, z, (c ++ [y]). split; [now rewrite <- app_assoc|]. split; [exact S|]. split; [exact C|]. intros c1 y' c2 g' E. apply snoc_split in E.
      destruct E as [(-> & -> & ->)|(c' & -> & ->)]; [apply L|now apply (H c1 y' c')].
Qed.
Theorem maria_any_stream bl c l : mode c -> c_txn c = false -> c_mysql c = None -> c_maria c = None -> o_list (c_opts c) = Some l -> NoDup (map mg_domain l) ->
  o_set (c_opts c) = None ->
  forall es, exists c' l', commit_all bl c es = Ok c' /\ remembers es c' /\ o_set (c_opts c') = None /\ o_list (c_opts c') = Some l' /\ NoDup (map mg_domain l') /\
    forall d g, domain_gtid l' d = Some g <-> (maria_saved_last es g /\ mg_domain g = d) \/ (maria_never_saved es d /\ domain_gtid l d = Some g).
Proof.
  intros M T A B Hl Hnd Hs. induction es as [|[h e] es IH] using rev_ind.
  - exists c, l. split; [reflexivity|]. split; [now apply remembers_nil|]. split; [exact Hs|]. split; [exact Hl|]. split; [exact Hnd|]. intros d g. split.
    + intros H. right. split; [|exact H]. intros p y c' g' E. destruct (nil_split _ _ _ E).
    + intros [[(p & y & c' & E & _) _]|[_ H]]; [destruct (nil_split _ _ _ E)|exact H].
  - destruct IH as (c1 & l1 & E1 & R1 & S1 & L1 & N1 & H1). rewrite commit_all_app, E1. cbn [rbind commit_all].
    destruct (saves_dec es c1 e R1) as [S|N].
    + assert (X : exists c2 l2, commit_gtid bl c1 = Ok c2 /\ o_set (c_opts c2) = None /\ o_list (c_opts c2) = Some l2 /\
        ((exists g, c_maria c1 = Some g /\ l2 = snd (gtid_list_add l1 g)) \/ (c_maria c1 = None /\ l2 = l1))).
      { destruct (c_maria c1) as [g|] eqn:Eg.
        - destruct (commit_gtid_maria bl c1 g l1 Eg L1 S1) as (c2 & C1 & _ & C2 & C3 & _). exists c2, (snd (gtid_list_add l1 g)). repeat split; eauto.
        - exists (Client (c_opts c1) false (c_maria c1) (c_mysql c1)), l1. split; [unfold commit_gtid; rewrite Eg, S1; destruct (c_mysql c1); reflexivity|]. auto. }
      destruct X as (c2 & l2 & C1 & C2 & C3 & C4). destruct (commit_saving bl es c1 h e c2 R1 S C1) as (c' & Ec). rewrite Ec. cbn [rbind].
      destruct (remembers_step bl es c1 h e c' R1 Ec) as (R & _ & F). destruct (F S) as (c3 & F1 & F2 & F3). rewrite C1 in F1. injection F1 as <-.
      exists c', l2. split; [reflexivity|]. split; [exact R|]. split; [congruence|]. split; [congruence|].
      destruct R1 as (_ & _ & _ & RB). destruct C4 as [(g0 & Eg & ->)|[Eg ->]].
      * split; [now apply gtid_list_add_unique|]. intros d g. rewrite gtid_list_add_lookup, maria_last_snoc, maria_never_snoc. cbn [snd].
        assert (Cg : forall g', maria_current es g' <-> g' = g0) by (intros g'; rewrite <- RB, Eg; split; congruence).
        destruct (N.eqb_spec (mg_domain g0) d) as [Ed|Ed].
        -- split.
           ++ intros Q. injection Q as <-. left. split; [left; split; [exact S|now apply Cg]|exact Ed].
           ++ intros [[[[_ Q]|[_ Q]] Q']|[[_ Q] _]].
              ** apply Cg in Q. congruence.
              ** exfalso. apply (Q g0); [exact S|now apply Cg|congruence].
              ** exfalso. apply (Q g0); [exact S|now apply Cg|exact Ed].
        -- rewrite H1. split.
           ++ intros [[Q Q']|[Q Q']]; [left; split; [right; split; [exact Q|]|exact Q']|right; split; [split; [exact Q|]|exact Q']];
                intros g' _ Q2; apply Cg in Q2; congruence.
           ++ intros [[[[_ Q]|[Q _]] Q']|[[Q _] Q']]; [apply Cg in Q; congruence|now left|now right].
      * split; [exact N1|]. intros d g. rewrite H1, maria_last_snoc, maria_never_snoc. cbn [snd].
        assert (Cg : forall g', ~ maria_current es g') by (intros g'; rewrite <- RB, Eg; discriminate).
        split.
        -- intros [[Q Q']|[Q Q']]; [left; split; [right; split; [exact Q|]|exact Q']|right; split; [split; [exact Q|]|exact Q']]; intros g' _ Q2; destruct (Cg _ Q2).
        -- intros [[[[_ Q]|[Q _]] Q']|[[Q _] Q']]; [destruct (Cg _ Q)|now left|now right].
    + destruct (commit_cases bl es c1 h e R1 N) as (c' & Ec). rewrite Ec. cbn [rbind].
      destruct (remembers_step bl es c1 h e c' R1 Ec) as (R & F & _). destruct (F N) as [F1 F2].
      exists c', l1. split; [reflexivity|]. split; [exact R|]. split; [congruence|]. split; [congruence|]. split; [exact N1|].
      intros d g. rewrite H1, maria_last_snoc, maria_never_snoc. cbn [snd]. tauto.
Qed.
