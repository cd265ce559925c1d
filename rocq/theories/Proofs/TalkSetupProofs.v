(* Exactly which packets lead replicate() to an event stream, and which to a panic: the steps after the login. *)
From Coq Require Import Sorting.Permutation Strings.String.
From Verif Require Import Base.Tac Base.Bytes Base.Text Base.Res Base.Str Base.Parse Model.Codec Model.Gtid Model.GtidMaria Model.Events Model.Client Model.Commands
  Model.Responses Model.Channel Model.Session Spec.GtidSpec Spec.CodecSpec Spec.CommandSpec Spec.ChannelSpec Spec.SessionSpec Spec.PanicSpec Spec.GtidTextSpec Spec.TalkSpec
  Proofs.CodecProofs Proofs.EventSafe Proofs.CommandProofs Proofs.ChannelProofs Proofs.ReplicateProofs Proofs.PlanProofs Proofs.LoginProofs Proofs.GtidTextProofs Proofs.PanicProofs
  Proofs.TalkProofs Proofs.TalkPacketProofs Proofs.TalkLoginProofs Spec.TalkSpec.
Local Open Scope N_scope.

(* ---- result sets ---- *)
Lemma tr_stuck {A} c (O : oks A) X : apart O X -> (forall c' a, ~ O c' a []) -> ~ X [] -> tr c (alift Diverge) O X.
Proof.
  intros AP NO NX. split; [exact AP|]. split; [|intros w W ps qs t rest P D; now destruct D]. intros w W. exists []. rewrite app_nil_r. cbn [alift fst snd received flat_map]. split; [reflexivity|]. split; [constructor|]. split; [|split].
  - intros a c'. split; [intros []; discriminate|intros H; now apply NO in H].
  - split; [discriminate|intros H; now apply NX in H].
  - intros c' a p q E H. exact (nil_app _ _ E).
Qed.
Definition cols_are (ps : list packet) : Prop := exists cols e, ps = cols ++ [e] /\ Forall (fun p => not_byte 0xFE (fst p)) cols /\ starts_byte 0xFE (fst e).
Lemma cols_nil : ~ cols_are [].
Proof. intros (cols & e & E & _). now destruct cols. Qed.
Lemma cols_cons p ps : cols_are (p :: ps) <-> (starts_byte 0xFE (fst p) /\ ps = []) \/ (not_byte 0xFE (fst p) /\ cols_are ps).
Proof.
  split.
  - intros (cols & e & E & F & S). destruct cols as [|q cols]; cbn [app] in E; injection E as -> ->; [left; auto|]. inv F. right. split; [assumption|]. exists cols, e. auto.
  - intros [[H ->]|[H (cols & e & -> & F & S)]]; [exists [], p; auto|]. exists (p :: cols), e. auto.
Qed.
Lemma cols_apart c : apart (fun c' (_ : unit) ps => c' = c /\ cols_are ps) Xno.
Proof.
  split; [|contradiction]. intros c1 [] p c2 [] q _ (-> & H1) (-> & H2). split; [|auto]. revert H1 H2. induction p as [|x p IH]; [intros H; now apply cols_nil in H|]. cbn [app].
  rewrite !cols_cons. intros [[A ->]|[A B]] [[C D]|[C D]]; [exact D|now apply (starts_not _ _ A) in C|now apply (starts_not _ _ C) in A|now apply IH].
Qed.
Lemma tr_skip c fuel : tr c (skip_columns fuel) (fun c' _ ps => c' = c /\ cols_are ps) Xno.
Proof.
  induction fuel as [|f IH]; cbn [skip_columns]; [apply tr_stuck; [apply cols_apart|intros c' [] [_ H]; now apply cols_nil in H|exact (fun H => H)]|].
  apply tr_read_or; [intros c' [] [_ H]; now apply cols_nil in H|exact (fun H => H)|]. intros p P. destruct (fst p) as [|b d] eqn:E.
  - right. split; [reflexivity|]. split; [reflexivity|]. split; [|intros ps H; exact H]. intros c' u ps (_ & H). apply cols_cons in H. destruct H as [[(d & H) _]|[(x & d & H & _) _]]; congruence.
  - left. apply (tr_ok_bind c _ (b2n b)); [reflexivity|]. unfold resp_eof. destruct (N.eqb_spec (b2n b) 0xFE) as [B|B].
    + apply b2n_eq in B. eapply tr_conv; [apply tr_ret| |]; unfold Oret, Xno; [|tauto]. intros c' [] ps _. rewrite cols_cons, E, B. split.
      * intros (-> & _ & ->). split; [reflexivity|]. left. split; [exists d; reflexivity|reflexivity].
      * intros (-> & [[_ ->]|[(x & d' & Z & K) _]]); [auto|]. injection Z as <- _. now destruct K.
    + eapply tr_conv; [exact IH| |]; [|unfold Xno; tauto]. intros c' [] ps _. rewrite cols_cons, E. split.
      * intros (-> & H). split; [reflexivity|]. right. split; [exists b, d; auto|exact H].
      * intros (-> & [[(d' & Z) _]|[_ H]]); [|auto]. injection Z as -> _. now destruct B.
Qed.
Definition rest_are (ps : list packet) (rows : list (list text)) : Prop := exists rps e, ps = rps ++ [e] /\ Forall2 is_row rps rows /\ starts_byte 0xFE (fst e).
Definition rest_huge (ps : list packet) : Prop := exists rps rows p, ps = rps ++ [p] /\ Forall2 is_row rps rows /\ not_byte 0xFF (fst p) /\ not_byte 0xFE (fst p) /\ row_huge (fst p).
Lemma rest_nil rows : ~ rest_are [] rows.
Proof. intros (r & e & E & _). now destruct r. Qed.
Lemma rest_cons p ps rows : rest_are (p :: ps) rows <-> (starts_byte 0xFE (fst p) /\ ps = [] /\ rows = []) \/ (exists row more, is_row p row /\ rows = row :: more /\ rest_are ps more).
Proof.
  split.
  - intros (rps & e & E & F & S). destruct rps as [|q rps]; cbn [app] in E; injection E as -> ->; inv F; [left; auto|]. right. eexists. eexists. split; [eassumption|]. split; [reflexivity|]. exists rps, e. auto.
  - intros [(H & -> & ->)|(row & more & H & -> & rps & e & -> & F & S)]; [exists [], p; auto|]. exists (p :: rps), e. auto.
Qed.
Lemma hg_nil : ~ rest_huge [].
Proof. intros (r & rows & p & E & _). now destruct r. Qed.
Lemma hg_cons p ps : rest_huge (p :: ps) <-> (ps = [] /\ not_byte 0xFF (fst p) /\ not_byte 0xFE (fst p) /\ row_huge (fst p)) \/ (exists row, is_row p row /\ rest_huge ps).
Proof.
  split.
  - intros (rps & rows & q & E & F & H). destruct rps as [|x rps]; cbn [app] in E; injection E as -> ->; inv F; [left; auto|]. right. eexists. split; [eassumption|]. exists rps. eexists. exists q. eauto.
  - intros [(-> & H)|(row & H & rps & rows & q & -> & F & K)]; [exists [], [], p; auto|]. exists (p :: rps), (row :: rows), q. auto.
Qed.
Lemma row_same p a b : packet_ok p -> is_row p a -> is_row p b -> a = b.
Proof. intros [L _] (_ & _ & A) (_ & _ & B). apply row_exact in A; [|exact L]. apply row_exact in B; [|exact L]. congruence. Qed.
Lemma row_not_huge p a : packet_ok p -> is_row p a -> ~ row_huge (fst p).
Proof. intros [L _] (_ & _ & A) B. apply row_exact in A; [|exact L]. apply row_panics in B; [|exact L]. congruence. Qed.
Lemma is_row_not p row : is_row p row -> ~ starts_byte 0xFE (fst p).
Proof. intros (_ & H & _) S. now apply (starts_not _ _ S) in H. Qed.
Lemma rest_apart c acc : apart (fun c' rows ps => c' = c /\ exists more, rows = acc ++ more /\ rest_are ps more) rest_huge.
Proof.
  split.
  - intros c1 a1 p c2 a2 q N (-> & m1 & -> & H1) (-> & m2 & -> & H2). assert (K : q = [] /\ m1 = m2); [|destruct K as [-> ->]; auto].
    revert m1 m2 N H1 H2. induction p as [|x p IH]; intros m1 m2 N; [intros H; now apply rest_nil in H|]. cbn [app] in *. rewrite !rest_cons. inv N.
    intros [(A & -> & ->)|(row & more & A & -> & B)] [(C & D & ->)|(row2 & more2 & C & -> & D)]; [auto|now apply is_row_not in C|now apply is_row_not in A|].
    rewrite (row_same x _ _ ltac:(assumption) A C). destruct (IH _ _ ltac:(assumption) B D) as [-> ->]. auto.
  - intros c1 a1 p q N (-> & m1 & -> & H1). revert m1 N H1. induction p as [|x p IH]; intros m1 N; [intros H; now apply rest_nil in H|]. cbn [app] in *. rewrite rest_cons, hg_cons. inv N.
    intros [(A & -> & ->)|(row & more & A & -> & B)] [(C & D & E & F)|(row2 & C & D)]; [now apply (starts_not _ _ A) in E|now apply is_row_not in C|exact (row_not_huge x row ltac:(assumption) A F)|].
    exact (IH _ ltac:(assumption) B D).
Qed.
Lemma tr_rows c fuel : forall acc, tr c (read_rows fuel acc) (fun c' rows ps => c' = c /\ exists more, rows = acc ++ more /\ rest_are ps more) rest_huge.
Proof.
  induction fuel as [|f IH]; intros acc; cbn [read_rows]; [apply tr_stuck; [apply rest_apart|intros c' rows (_ & more & _ & H); now apply rest_nil in H|exact hg_nil]|].
  apply tr_check_bind.
  { split.
    - intros c' rows ps (_ & more & _ & H). destruct ps as [|p ps]; [now apply rest_nil in H|]. exists p, ps. split; [reflexivity|]. apply rest_cons in H. destruct H as [(H & _)|(row & m & (H & _) & _)]; [apply (starts_other _ _ _ H); lia|exact H].
    - intros ps H. destruct ps as [|p ps]; [now apply hg_nil in H|]. exists p, ps. split; [reflexivity|]. apply hg_cons in H. destruct H as [(_ & H & _)|(row & (H & _) & _)]; exact H. }
  intros p P NB. destruct (fst p) as [|b d] eqn:E; [now apply not_nil in NB|]. apply (tr_ok_bind c _ (b2n b)); [reflexivity|]. unfold resp_eof. destruct (N.eqb_spec (b2n b) 0xFE) as [B|B].
  - apply b2n_eq in B. assert (S : starts_byte 0xFE (fst p)) by (rewrite E, B; exists d; reflexivity). eapply tr_conv; [apply tr_ret| |]; unfold Oret, Xno.
    + intros c' rows ps _. split.
      * intros (-> & -> & ->). split; [reflexivity|]. exists []. split; [now rewrite app_nil_r|]. apply rest_cons. auto.
      * intros (-> & more & -> & H). apply rest_cons in H. destruct H as [(_ & -> & ->)|(row & m & H & _)]; [now rewrite app_nil_r|]. now apply is_row_not in H.
    + intros ps _. split; [contradiction|]. intros H. apply hg_cons in H. destruct H as [(_ & _ & H & _)|(row & H & _)]; [now apply (starts_not _ _ S) in H|now apply is_row_not in H].
  - rewrite <- E in *. assert (NE : not_byte 0xFE (fst p)) by (rewrite E; exists b, d; auto). assert (NS : ~ starts_byte 0xFE (fst p)) by (intros S; now apply (starts_not _ _ S) in NE).
    destruct P as [L LS]. destruct (parse_row_packet (fst p)) as [row|e| |] eqn:R.
    + apply row_exact in R; [|exact L]. assert (IR : is_row p row) by (split; auto). apply (tr_ok_bind c _ row); [reflexivity|]. eapply tr_conv; [apply IH| |].
      * intros c' rows ps _. split.
        -- intros (-> & more & -> & H). split; [reflexivity|]. exists (row :: more). split; [now rewrite <- app_assoc|]. apply rest_cons. right. eauto.
        -- intros (-> & more & -> & H). split; [reflexivity|]. apply rest_cons in H. destruct H as [(S & _)|(row2 & m & H & -> & K)]; [contradiction|]. exists m. rewrite (row_same p _ _ (conj L LS) IR H), <- app_assoc. auto.
      * intros ps _. rewrite hg_cons. split; [intros H; right; eauto|]. intros [(_ & _ & _ & H)|(row2 & H & K)]; [exfalso; exact (row_not_huge p row (conj L LS) IR H)|exact K].
    + eapply tr_conv; [apply (tr_fail_bind c _ e); reflexivity| |]; unfold Ono, Xno.
      * intros c' rows ps _. split; [contradiction|]. intros (_ & more & _ & H). apply rest_cons in H. destruct H as [(S & _)|(row2 & m & (_ & _ & H) & _)]; [contradiction|]. apply row_exact in H; [|exact L]. congruence.
      * intros ps _. split; [contradiction|]. intros H. apply hg_cons in H. destruct H as [(_ & _ & _ & H)|(row2 & (_ & _ & H) & _)]; [apply row_panics in H; [|exact L]; congruence|apply row_exact in H; [|exact L]; congruence].
    + pose proof (proj1 (row_panics _ L) R) as RH. eapply tr_conv; [apply tr_panic_bind; reflexivity| |]; unfold Ono, Xnow.
      * intros c' rows ps _. split; [contradiction|]. intros (_ & more & _ & H). apply rest_cons in H. destruct H as [(S & _)|(row2 & m & (_ & _ & H) & _)]; [contradiction|]. apply row_exact in H; [|exact L]. congruence.
      * intros ps _. rewrite hg_cons. split; [intros ->; left; auto|]. intros [(H & _)|(row2 & (_ & _ & H) & _)]; [exact H|]. apply row_exact in H; [|exact L]. congruence.
    + eapply tr_conv; [apply tr_diverge_bind; reflexivity| |]; unfold Ono, Xno.
      * intros c' rows ps _. split; [contradiction|]. intros (_ & more & _ & H). apply rest_cons in H. destruct H as [(S & _)|(row2 & m & (_ & _ & H) & _)]; [contradiction|]. apply row_exact in H; [|exact L]. congruence.
      * intros ps _. split; [contradiction|]. intros H. apply hg_cons in H. destruct H as [(_ & _ & _ & H)|(row2 & (_ & _ & H) & _)]; [apply row_panics in H; [|exact L]; congruence|apply row_exact in H; [|exact L]; congruence].
Qed.
Definition rows_huge (ps : list packet) : Prop := exists rs rows p, ps = rs ++ [p] /\ rows_open rs rows /\ not_byte 0xFF (fst p) /\ not_byte 0xFE (fst p) /\ row_huge (fst p).
Lemma tr_result c : tr c read_result_set (fun c' rows ps => c' = c /\ rows_are ps rows) rows_huge.
Proof.
  unfold read_result_set. apply tr_check_bind.
  { split.
    - intros c' rows ps (_ & k & e & -> & (first & cols & e1 & rps & -> & H & _) & _). cbn [app]. eauto.
    - intros ps (k & rows & p & -> & (first & cols & e1 & rps & -> & H & _) & _). cbn [app]. eauto. }
  intros first P NB. eapply tr_conv.
  - apply (tr_bind c _ _ _ _ (fun c1 _ c' rows ps => c' = c1 /\ rest_are ps rows) (fun _ _ => rest_huge) (tr_in c (fun w => skip_columns (in_size (w_in w))) _ _ (fun v => tr_skip c (in_size (w_in v))))).
    intros c1 [] p _ (-> & H). apply (tr_in c (fun w => read_rows (in_size (w_in w)) [])). intros v. eapply tr_conv; [apply tr_rows| |].
    + intros c' rows ps _. cbn [app]. split; [intros (-> & more & -> & K); auto|intros (-> & K); eauto].
    + intros ps _. reflexivity.
  - intros c' rows ps _. split.
    + intros (c1 & [] & p & q & -> & (-> & cols & e & -> & F & S) & (-> & rps & e2 & -> & F2 & S2)). split; [reflexivity|]. exists (first :: cols ++ e :: rps), e2. split; [cbn [app]; now rewrite <- !app_assoc|].
      split; [|exact S2]. exists first, cols, e, rps. auto.
    + intros (-> & k & e2 & E & (f0 & cols & e & rps & -> & _ & F & S & F2) & S2). cbn [app] in E. injection E as <- ->. exists c, tt, (cols ++ [e]), (rps ++ [e2]). split; [now rewrite <- !app_assoc|].
      split; [split; [reflexivity|]; exists cols, e; auto|]. split; [reflexivity|]. exists rps, e2. auto.
  - intros ps _. unfold Xno. split.
    + intros [[]|(c1 & [] & p & q & -> & (-> & cols & e & -> & F & S) & (rps & rows & e2 & -> & F2 & S2))]. exists (first :: cols ++ e :: rps), rows, e2. split; [cbn [app]; now rewrite <- !app_assoc|].
      split; [|exact S2]. exists first, cols, e, rps. auto.
    + intros (k & rows & e2 & E & (f0 & cols & e & rps & -> & _ & F & S & F2) & S2). cbn [app] in E. injection E as <- ->. right. exists c, tt, (cols ++ [e]), (rps ++ [e2]). split; [now rewrite <- !app_assoc|].
      split; [split; [reflexivity|]; exists cols, e; auto|]. exists rps, rows, e2. auto.
Qed.
Lemma rows_first ps row rows : rows_are ps (row :: rows) -> exists p, In p ps /\ is_row p row.
Proof.
  intros (k & e & -> & (first & cols & e1 & rps & -> & _ & _ & _ & F) & _). inversion F as [|p r ps' rs H F' Q1 Q2]; subst. exists p. split; [|exact H]. apply in_or_app. left. right. apply in_or_app. right. right. left. reflexivity.
Qed.
Lemma row_nonempty p : ~ is_row p [].
Proof. intros (H & _ & K). remember (@nil text) as c0. destruct K; [|discriminate]. destruct H as (x & d & E & _). discriminate E. Qed.
Lemma row_cell p t cells : packet_ok p -> is_row p (t :: cells) -> N.of_nat (length (utf8_encode t)) < 16777216.
Proof. intros [L _] (_ & _ & K). remember (t :: cells) as c0. destruct K as [|h t0 rest cs V LE K]; [discriminate|]. injection Heqc0 as -> ->. rewrite !app_length in L. lia. Qed.

(* ---- the position ---- *)
Lemma at_end_dec o : asks_end o = true <-> at_end o.
Proof. unfold asks_end, at_end. destruct (o_strategy o), (o_file o); cbn; split; try discriminate; try (intros []; discriminate); auto. Qed.
Definition pos_stops (o : options) (ps : list packet) : Prop := at_end o /\ (rows_huge ps \/ exists file, rows_are ps [[file]]).
Lemma rows_same : forall ps r1 r2, numb ps -> rows_are ps r1 -> rows_are ps r2 -> r1 = r2.
Proof.
  intros ps r1 r2 N H1 H2. destruct (tr_result (client_new (Options [] 0 None None FromEnd))) as [[A _] _].
  rewrite <- (app_nil_r ps) in H2, N. destruct (A _ r1 ps _ r2 [] N (conj eq_refl H1) (conj eq_refl H2)) as (_ & _ & E). exact E.
Qed.
Lemma huge_not_rows ps r : numb ps -> rows_huge ps -> ~ rows_are ps r.
Proof.
  intros N H1 H2. destruct (tr_result (client_new (Options [] 0 None None FromEnd))) as [[_ A] _]. rewrite <- (app_nil_r ps) in H1, N. exact (A _ r ps [] N (conj eq_refl H2) H1).
Qed.
Lemma tr_adjust o t m y : tr (Client o t m y) adjust_starting_position (fun c' _ ps => exists o', c' = Client o' t m y /\ status_ok o ps o') (pos_stops o).
Proof.
  unfold adjust_starting_position. apply tr_client_bind. cbn [c_opts c_txn c_maria c_mysql].
  assert (NO : asks_end o = false -> tr (Client o t m y) (aret tt) (fun c' _ ps => exists o', c' = Client o' t m y /\ status_ok o ps o') (pos_stops o)).
  { intros A. assert (NE : ~ at_end o) by (intros F; apply at_end_dec in F; congruence). eapply tr_conv; [apply tr_ret| |]; unfold Oret, Xno, pos_stops.
    - intros c' [] ps _. split; [intros (-> & _ & ->); exists o; split; [reflexivity|]; left; auto|]. intros (o' & -> & [(_ & -> & ->)|(F & _)]); [auto|contradiction].
    - intros ps _. tauto. }
  unfold asks_end in NO. destruct (strategy_eqb (o_strategy o) FromEnd) eqn:S; cbn [negb]; [|apply NO; destruct (o_strategy o); try discriminate; reflexivity].
  assert (S' : o_strategy o = FromEnd) by (destruct (o_strategy o); discriminate || reflexivity). rewrite S' in NO.
  destruct (o_file o) as [|x fl] eqn:FL; [|now apply NO]. clear NO. assert (FE : at_end o) by (split; assumption).
  apply tr_write_bind; [reflexivity|]. set (c := Client o t m y). eapply tr_conv.
  - apply (tr_bind c _ _ _ _
      (fun c1 rows c' (_ : unit) ps => ps = [] /\ exists file ptext pos cells, rows = [file :: ptext :: cells] /\ number (2 ^ 32) ptext pos /\ c' = Client (Options file pos (o_set o) (o_list o) (o_strategy o)) t m y)
      (fun c1 rows ps => ps = [] /\ exists file, rows = [[file]]) (tr_result c)).
    intros c1 rows p NP (-> & H). destruct rows as [|row [|row2 rows]].
    + eapply tr_conv; [apply tr_fail| |]; unfold Ono, Xno.
      * intros c' [] ps _. split; [contradiction|]. intros (_ & ? & ? & ? & ? & Z & _). discriminate Z.
      * intros ps _. split; [contradiction|]. intros (_ & ? & Z). discriminate Z.
    + destruct row as [|file [|ptext cells]].
      * exfalso. destruct (rows_first _ _ _ H) as (q & _ & K). now apply row_nonempty in K.
      * apply tr_set_bind. eapply tr_conv; [apply tr_panic| |]; unfold Ono, Xnow.
        -- intros c' [] ps _. split; [contradiction|]. intros (_ & ? & ? & ? & ? & Z & _). discriminate Z.
        -- intros ps _. split; [intros ->; eauto|]. intros (Z & _). exact Z.
      * apply tr_set_bind. change u32max1 with (2 ^ 32). destruct (parse_uint (2 ^ 32) ptext) as [pos|e| |] eqn:PU.
        -- apply (tr_ok_bind _ _ pos); [reflexivity|]. eapply tr_conv; [apply tr_set| |]; unfold Oret, Xno.
           ++ intros c' [] ps _. split.
              ** intros (-> & _ & ->). split; [reflexivity|]. exists file, ptext, pos, cells. split; [reflexivity|]. split; [now apply number_parse|reflexivity].
              ** intros (-> & f2 & p2 & pos2 & c2 & E & NU & ->). injection E as <- <- <-. apply number_parse in NU. assert (pos2 = pos) by congruence. subst pos2. auto.
           ++ intros ps _. split; [contradiction|]. intros (_ & ? & Z). discriminate Z.
        -- eapply tr_conv; [apply (tr_fail_bind _ _ e); reflexivity| |]; unfold Ono, Xno.
           ++ intros c' [] ps _. split; [contradiction|]. intros (_ & f2 & p2 & pos2 & c2 & E & NU & _). injection E as <- <- <-. apply number_parse in NU. congruence.
           ++ intros ps _. split; [contradiction|]. intros (_ & ? & Z). discriminate Z.
        -- exfalso. pose proof (parse_uint_returns (2 ^ 32) ptext) as K. rewrite PU in K. destruct K.
        -- exfalso. pose proof (parse_uint_returns (2 ^ 32) ptext) as K. rewrite PU in K. destruct K.
    + eapply tr_conv; [apply tr_fail| |]; unfold Ono, Xno.
      * intros c' [] ps _. split; [contradiction|]. intros (_ & ? & ? & ? & ? & Z & _). discriminate Z.
      * intros ps _. split; [contradiction|]. intros (_ & ? & Z). discriminate Z.
  - intros c' [] ps _. split.
    + intros (c1 & rows & p & q & -> & (-> & H) & -> & file & ptext & pos & cells & -> & NU & ->). rewrite app_nil_r. eexists. split; [reflexivity|]. right. split; [exact FE|]. exists file, ptext, pos, cells. auto.
    + intros (o' & -> & [(NF & _)|(_ & file & ptext & pos & cells & H & NU & ->)]); [contradiction|]. exists c, [file :: ptext :: cells], ps, []. split; [now rewrite app_nil_r|]. split; [auto|]. split; [reflexivity|]. exists file, ptext, pos, cells. auto.
  - intros ps _. unfold pos_stops. split.
    + intros [H|(c1 & rows & p & q & -> & (-> & H) & -> & file & ->)]; (split; [exact FE|]); [auto|]. rewrite app_nil_r. eauto.
    + intros (_ & [H|(file & H)]); [auto|]. right. exists c, [[file]], ps, []. rewrite app_nil_r. eauto 8.
Qed.

(* ---- statements ---- *)
Definition all_pass (n : nat) (ps : list packet) : Prop := Forall (fun p => not_byte 0xFF (fst p)) ps /\ length ps = n.
Lemma pass_cons n p ps : not_byte 0xFF (fst p) -> all_pass (S n) (p :: ps) <-> all_pass n ps.
Proof. intros H. unfold all_pass. cbn [length]. split; [intros [F L]; inv F; split; [assumption|lia]|intros [F L]; split; [now constructor|lia]]. Qed.
Lemma pass_0 ps : all_pass 0 ps <-> ps = [].
Proof. unfold all_pass. split; [intros [_ L]; now destruct ps|intros ->; auto]. Qed.
(* after a packet that is no error *)
Lemma tr_reply_bind {B} c m (f : packet -> act B) (G : client -> B -> Prop) (H : Prop) n :
  (forall p, tr c (f p) (fun c' b ps => G c' b /\ all_pass n ps) (fun ps => H /\ all_pass n ps)) ->
  tr c (r <== a_read ;; _ <== alift (check_error_packet (fst r) m) ;; f r) (fun c' b ps => G c' b /\ all_pass (S n) ps) (fun ps => H /\ all_pass (S n) ps).
Proof.
  intros F. assert (FO : forall ps, all_pass (S n) ps -> exists p q, ps = p :: q /\ not_byte 0xFF (fst p)).
  { intros ps [K L]. destruct ps as [|p ps]; [discriminate L|]. inv K. eauto. }
  apply tr_check_bind; [split; [intros c' b ps [_ K]; auto|intros ps [_ K]; auto]|]. intros p P NB. eapply tr_conv; [apply F| |].
  - intros c' b ps _. cbn beta. now rewrite pass_cons.
  - intros ps _. cbn beta. now rewrite pass_cons.
Qed.
Lemma tr_statement_bind {B} c sql m (f : unit -> act B) (G : client -> B -> Prop) (H : Prop) n : N.of_nat (length (utf8_encode sql)) < 16777215 ->
  tr c (f tt) (fun c' b ps => G c' b /\ all_pass n ps) (fun ps => H /\ all_pass n ps) ->
  tr c (abind (statement sql m) f) (fun c' b ps => G c' b /\ all_pass (S n) ps) (fun ps => H /\ all_pass (S n) ps).
Proof.
  intros L F. unfold statement. apply tr_assoc, tr_write_bind; [unfold query_command; cbn [length app]; lia|]. apply tr_assoc.
  apply (tr_eq c _ (r <== a_read ;; _ <== alift (check_error_packet (fst r) m) ;; f tt)).
  { intros w _. unfold abind, alift. destruct (a_read w) as [[r|e| |] w']; try reflexivity. destruct (check_error_packet (fst r) m) as [[]|e| |]; reflexivity. }
  apply tr_reply_bind. intros _. exact F.
Qed.
Lemma tr_dump c id o : N.of_nat (length (utf8_encode (o_file o))) < 16777216 ->
  tr c (a_write (dump_command id (o_file o) (o_pos o)) 0) (fun c' _ ps => (c' = c /\ short_name o) /\ all_pass 0 ps) (fun ps => ~ short_name o /\ all_pass 0 ps).
Proof.
  intros L. assert (DL : N.of_nat (length (dump_command id (o_file o) (o_pos o))) = 11 + N.of_nat (length (utf8_encode (o_file o)))) by (unfold dump_command; rewrite !app_length, !le_enc_length; cbn [length]; lia).
  unfold short_name. destruct (N.lt_ge_cases (N.of_nat (length (utf8_encode (o_file o)))) 16777205) as [S|S].
  - eapply tr_conv; [apply tr_write; lia| |]; unfold Oret, Xno.
    + intros c' [] ps _. rewrite pass_0. tauto.
    + intros ps _. split; [contradiction|]. intros (Z & _). apply Z. exact S.
  - eapply tr_conv; [apply tr_write_big; lia| |]; unfold Ono, Xnow.
    + intros c' [] ps _. split; [contradiction|]. intros ((_ & Z) & _). lia.
    + intros ps _. rewrite pass_0. split; [intros ->; split; [lia|reflexivity]|tauto].
Qed.
Lemma checksum_exact name ck : checksum_from_name name = Ok ck <-> name = checksum_name ck.
Proof.
  split; [|intros ->; apply checksum_named]. unfold checksum_from_name, checksum_name. destruct (text_eqb_spec name (tx "NONE")) as [->|_]; [intros E; now injection E as <-|].
  destruct (text_eqb_spec name (tx "CRC32")) as [->|_]; [intros E; now injection E as <-|discriminate].
Qed.
Lemma tr_checksum c : tr c set_master_binlog_checksum (fun c' ck ps => c' = c /\ exists a rs cells rows, ps = a :: rs /\ not_byte 0xFF (fst a) /\ rows_are rs ((checksum_name ck :: cells) :: rows))
  (fun ps => exists a rs, ps = a :: rs /\ not_byte 0xFF (fst a) /\ (rows_huge rs \/ rows_are rs [])).
Proof.
  unfold set_master_binlog_checksum, statement. apply tr_assoc, tr_write_bind; [reflexivity|]. apply tr_assoc.
  apply tr_check_bind. { split; [intros c' ck ps (_ & a & rs & _ & _ & -> & H & _); eauto|intros ps (a & rs & -> & H & _); eauto]. }
  intros a P NB. apply tr_write_bind; [reflexivity|]. eapply tr_conv.
  - apply (tr_bind c _ _ _ _ (fun c1 rows c' ck ps => c' = c1 /\ ps = [] /\ exists cells more, rows = (checksum_name ck :: cells) :: more) (fun c1 rows ps => ps = [] /\ rows = []) (tr_result c)).
    intros c1 rows p N (-> & H). destruct rows as [|[|name cells] rows].
    + eapply tr_conv; [apply tr_panic| |]; unfold Ono, Xnow; [|tauto]. intros c' ck ps _. split; [contradiction|]. intros (_ & _ & ? & ? & Z). discriminate Z.
    + exfalso. destruct (rows_first _ _ _ H) as (q & _ & K). now apply row_nonempty in K.
    + destruct (checksum_from_name name) as [ck|e| |] eqn:CK.
      * eapply tr_conv; [apply (tr_ok c _ ck); reflexivity| |]; unfold Oret, Xno.
        -- intros c' ck' ps _. apply checksum_exact in CK. split; [intros (-> & -> & ->); split; [reflexivity|]; split; [reflexivity|]; exists cells, rows; now rewrite CK|].
           intros (-> & -> & cells2 & more & E). injection E as E _ _. split; [reflexivity|]. split; [|reflexivity]. apply checksum_exact in E. apply checksum_exact in CK. congruence.
        -- intros ps _. split; [contradiction|]. intros (_ & Z). discriminate Z.
      * eapply tr_conv; [apply tr_fail| |]; unfold Ono, Xno.
        -- intros c' ck' ps _. split; [contradiction|]. intros (_ & _ & cells2 & more & E). injection E as E _ _. apply checksum_exact in E. congruence.
        -- intros ps _. split; [contradiction|]. intros (_ & Z). discriminate Z.
      * now apply checksum_panic in CK.
      * now apply checksum_fin in CK.
  - intros c' ck ps _. split.
    + intros (c1 & rows & p & q & -> & (-> & H) & -> & -> & cells & more & ->). rewrite app_nil_r. split; [reflexivity|]. exists a, p, cells, more. auto.
    + intros (-> & a' & rs & cells & rows & E & _ & H). injection E as <- ->. exists c, ((checksum_name ck :: cells) :: rows), rs, []. rewrite app_nil_r. split; [reflexivity|]. split; [auto|]. eauto 8.
  - intros ps _. split.
    + intros [H|(c1 & rows & p & q & -> & (-> & H) & -> & ->)]; [exists a, ps; auto|]. rewrite app_nil_r. exists a, p. auto.
    + intros (a' & rs & E & _ & [H|H]); injection E as <- ->; [left; exact H|]. right. exists c, [], rs, []. rewrite app_nil_r. auto.
Qed.

(* ---- the request for the events ---- *)
Definition list_fits (o : options) : Prop := o_strategy o = FromGtid -> forall l, o_list o = Some l -> N.of_nat (length (gtid_list_text l)) < 10000000.
Definition set_fits (ev : env) (o : options) : Prop := o_strategy o = FromGtid -> N.of_nat (length (utf8_encode (o_file o))) < 1000000 /\ forall s, o_set o = Some s ->
  set_ok s /\ set_canonical s /\ (forall d, ~ set_has s d 0) /\ Permutation s (e_order ev s) /\ N.of_nat (length (flat_map entry_bytes s)) < 10000000.
Definition file_fits (o : options) : Prop := N.of_nat (length (utf8_encode (o_file o))) < 16777216.
Lemma gtid_eqb s : strategy_eqb s FromGtid = true <-> s = FromGtid.
Proof. destruct s; cbn; split; discriminate || auto. Qed.
Lemma dump_gtid_fits bl ev id o s : set_fits ev o -> o_strategy o = FromGtid -> o_set o = Some s ->
  exists x, dump_gtid_command bl id (o_file o) (o_pos o) (e_order ev s) = Ok x /\ N.of_nat (length x) < 16777216.
Proof.
  intros F S E. destruct (F S) as (K0 & K). destruct (K s E) as (K1 & K2 & K3 & K4 & K5).
  assert (LE : forall a b : gtid_set, Permutation a b -> length (flat_map entry_bytes a) = length (flat_map entry_bytes b)).
  { clear. intros a b H. induction H; cbn [flat_map]; rewrite ?app_length; lia. }
  assert (SS : sendable (e_order ev s)) by (pose proof (set_ok_sendable s K1 K2 K3) as SS; unfold sendable in *; now rewrite <- K4).
  assert (ES : dump_sets bl (e_order ev s) = Ok (flat_map entry_bytes (e_order ev s))).
  { apply dump_sets_ok. eapply Forall_impl; [|exact SS]. cbn beta. intros e (_ & _ & Z). eapply Forall_impl; [|exact Z]. cbn beta. tauto. }
  unfold dump_gtid_command. rewrite ES. cbn [rbind]. eexists. split; [reflexivity|]. rewrite !app_length, !le_enc_length. cbn [length]. specialize (LE _ _ K4). lia.
Qed.
Lemma tr_mysql bl ev id c : file_fits (c_opts c) -> set_fits ev (c_opts c) ->
  tr c (replicate_mysql bl ev id) (fun c' _ ps => c' = c /\ request_ok MySQL (c_opts c) ps /\ short_name (c_opts c)) (fun ps => request_ok MySQL (c_opts c) ps /\ ~ short_name (c_opts c)).
Proof.
  intros FF SF. unfold replicate_mysql, request_ok. apply tr_client_bind. cbv zeta. set (o := c_opts c) in *. destruct (strategy_eqb (o_strategy o) FromGtid) eqn:S.
  - apply gtid_eqb in S. assert (SN : short_name o) by (unfold short_name; destruct (SF S) as [K _]; lia). destruct (o_set o) as [s|] eqn:E.
    + destruct (dump_gtid_fits bl ev id o s SF S E) as (x & X & L). apply (tr_ok_bind c _ x); [exact X|]. eapply tr_conv; [apply tr_write; exact L| |]; unfold Oret, Xno.
      * intros c' [] ps _. split; [intros (-> & _ & ->); split; [reflexivity|]; split; [split; [reflexivity|discriminate]|exact SN]|tauto].
      * intros ps _. tauto.
    + eapply tr_conv; [apply tr_fail| |]; unfold Ono, Xno.
      * intros c' [] ps _. split; [contradiction|]. intros (_ & (_ & Z) & _). now apply (Z S).
      * intros ps _. tauto.
  - assert (S' : o_strategy o <> FromGtid) by (intros Z; apply gtid_eqb in Z; congruence). eapply tr_conv; [apply (tr_dump c id o FF)| |].
    + intros c' [] ps _. cbn beta. rewrite pass_0. tauto.
    + intros ps _. cbn beta. rewrite pass_0. tauto.
Qed.
Lemma tr_mariadb st id c : file_fits (c_opts c) -> list_fits (c_opts c) ->
  tr c (replicate_mariadb st id) (fun c' _ ps => c' = c /\ request_ok MariaDB (c_opts c) ps /\ short_name (c_opts c)) (fun ps => request_ok MariaDB (c_opts c) ps /\ ~ short_name (c_opts c)).
Proof.
  intros FF LF. set (o := c_opts c) in *.
  assert (D : tr c (a_write (dump_command id (o_file o) (o_pos o)) 0) (fun c' _ ps => (c' = c /\ short_name o) /\ all_pass 0 ps) (fun ps => ~ short_name o /\ all_pass 0 ps)) by exact (tr_dump c id o FF).
  destruct (strategy_eqb (o_strategy o) FromGtid) eqn:S.
  - pose proof (proj1 (gtid_eqb _) S) as S'. destruct (o_list o) as [l|] eqn:E.
    + assert (L : N.of_nat (length (utf8_encode (connect_state_sql l))) < 16777215).
      { unfold connect_state_sql. unfold utf8_encode. rewrite !flat_map_app, !app_length. fold (utf8_encode (gtid_list_text l)). rewrite list_text_length.
        change (length (flat_map utf8_char (tx "SET @slave_connect_state='"))) with 26%nat. change (length (flat_map utf8_char (tx "'"))) with 1%nat. specialize (LF S' l E). lia. }
      eapply tr_conv with (O := fun c' _ ps => (c' = c /\ short_name o) /\ all_pass 5 ps) (X := fun ps => ~ short_name o /\ all_pass 5 ps).
      * unfold replicate_mariadb. apply tr_statement_bind; [reflexivity|]. apply tr_client_bind. cbv zeta. fold o. rewrite S, E. unfold register_gtid_slave.
        apply tr_assoc, tr_statement_bind; [exact L|]. apply tr_assoc, tr_statement_bind; [reflexivity|]. apply tr_assoc, tr_statement_bind; [reflexivity|].
        apply tr_assoc, tr_write_bind; [unfold register_command; rewrite !app_length, !le_enc_length; reflexivity|]. apply tr_assoc. apply tr_reply_bind. intros _. exact D.
      * intros c' [] ps _. unfold request_ok, all_pass. rewrite S', E. split; [intros ((-> & H1) & H2 & H3); repeat split; auto; discriminate|tauto].
      * intros ps _. unfold request_ok, all_pass. rewrite S', E. split; [intros (H1 & H2 & H3); repeat split; auto; discriminate|tauto].
    + eapply tr_conv with (O := fun c' _ ps => False /\ all_pass 1 ps) (X := fun ps => False /\ all_pass 1 ps).
      * unfold replicate_mariadb. apply (tr_statement_bind c _ _ _ (fun _ _ => False)); [reflexivity|]. apply tr_client_bind. cbv zeta. fold o. rewrite S, E.
        eapply tr_conv; [apply (tr_fail_bind c _ (EString no_gtid_list)); reflexivity| |]; unfold Ono, Xno; [intros c' [] ps _; tauto|intros ps _; tauto].
      * intros c' [] ps _. unfold request_ok. rewrite S', E. split; [tauto|]. intros (_ & (_ & _ & Z) & _). exfalso. now apply Z.
      * intros ps _. unfold request_ok. rewrite S', E. split; [tauto|]. intros ((_ & _ & Z) & _). exfalso. now apply Z.
  - assert (S' : o_strategy o <> FromGtid) by (intros Z; apply gtid_eqb in Z; congruence).
    assert (RQ : forall ps, request_ok MariaDB o ps <-> all_pass 1 ps).
    { intros ps. unfold request_ok, all_pass. destruct (o_strategy o); [tauto..| |]; try (now destruct S'); split; try tauto; intros [H1 H2]; repeat split; auto; congruence. }
    eapply tr_conv with (O := fun c' _ ps => (c' = c /\ short_name o) /\ all_pass 1 ps) (X := fun ps => ~ short_name o /\ all_pass 1 ps).
    + unfold replicate_mariadb. apply tr_statement_bind; [reflexivity|]. apply tr_client_bind. cbv zeta. fold o. rewrite S. apply tr_ret_bind. exact D.
    + intros c' [] ps _. cbn beta. rewrite RQ. tauto.
    + intros ps _. cbn beta. rewrite RQ. tauto.
Qed.

(* ---- everything after the login ---- *)
Section SetUp.
Context (bl : build) (ev : env) (st : settings).
Context (HB : s_heartbeat st < 2 ^ 100).
Definition fits (o : options) : Prop := N.of_nat (length (utf8_encode (o_file o))) < 1000000 /\ list_fits o /\ set_fits ev o.
Lemma status_fits o ps o' : fits o -> numb ps -> status_ok o ps o' -> file_fits o' /\ list_fits o' /\ set_fits ev o'.
Proof.
  intros (F1 & F2 & F3) N [(_ & _ & ->)|((S & _) & file & ptext & pos & cells & H & _ & ->)]; [unfold file_fits; split; [lia|auto]|].
  destruct (rows_first _ _ _ H) as (p & I & R). unfold numb in N. rewrite Forall_forall in N. pose proof (row_cell p _ _ (N _ I) R) as L. split; [exact L|]. unfold list_fits, set_fits. cbn [o_strategy]. split; intros Z; congruence.
Qed.
Lemma tr_request pr c : file_fits (c_opts c) -> list_fits (c_opts c) -> set_fits ev (c_opts c) ->
  tr c (match pr with MariaDB => replicate_mariadb st (the_id st) | MySQL => replicate_mysql bl ev (the_id st) end)
    (fun c' _ ps => c' = c /\ request_ok pr (c_opts c) ps /\ short_name (c_opts c)) (fun ps => request_ok pr (c_opts c) ps /\ ~ short_name (c_opts c)).
Proof. intros F1 F2 F3. destruct pr; [now apply tr_mariadb|now apply tr_mysql]. Qed.
Definition sums3 (ck : checksum) (ps : list packet) : Prop := exists a rs cells rows, ps = a :: rs /\ not_byte 0xFF (fst a) /\ rows_are rs ((checksum_name ck :: cells) :: rows).
Definition sums3_stops (ps : list packet) : Prop := exists a rs, ps = a :: rs /\ not_byte 0xFF (fst a) /\ (rows_huge rs \/ rows_are rs []).
Lemma tr_rest3 pr c : file_fits (c_opts c) -> list_fits (c_opts c) -> set_fits ev (c_opts c) ->
  tr c (ck <== set_master_binlog_checksum ;; _ <== match pr with MariaDB => replicate_mariadb st (the_id st) | MySQL => replicate_mysql bl ev (the_id st) end ;; aret ck)
    (fun c' ck ps => c' = c /\ exists p q, ps = p ++ q /\ sums3 ck p /\ request_ok pr (c_opts c) q /\ short_name (c_opts c))
    (fun ps => sums3_stops ps \/ exists ck p q, ps = p ++ q /\ sums3 ck p /\ request_ok pr (c_opts c) q /\ ~ short_name (c_opts c)).
Proof.
  intros F1 F2 F3. eapply tr_conv.
  - apply (tr_bind c _ _ _ _ (fun c1 ck c' ck' ps => c' = c /\ ck' = ck /\ request_ok pr (c_opts c) ps /\ short_name (c_opts c)) (fun c1 ck ps => request_ok pr (c_opts c) ps /\ ~ short_name (c_opts c)) (tr_checksum c)).
    intros c1 ck p N (-> & _). eapply tr_conv.
    + apply (tr_bind c _ _ _ _ (fun c1 _ => Oret c1 ck) (fun _ _ => Xno) (tr_request pr c F1 F2 F3)). intros c1 [] q _ _. apply tr_ret.
    + intros c' ck' ps _. unfold Oret. split; [intros (c1 & [] & p1 & q1 & -> & (-> & H1 & H2) & -> & -> & ->); rewrite app_nil_r; auto|].
      intros (-> & -> & H1 & H2). exists c, tt, ps, []. rewrite app_nil_r. auto 8.
    + intros ps _. unfold Xno. split; [intros [H|(? & ? & ? & ? & _ & _ & [])]; exact H|auto].
  - intros c' ck ps _. unfold sums3. split.
    + intros (c1 & ck1 & p & q & -> & (-> & H) & -> & -> & K). split; [reflexivity|]. exists p, q. auto.
    + intros (-> & p & q & -> & H & K). exists c, ck, p, q. auto 8.
  - intros ps _. unfold sums3. split.
    + intros [H|(c1 & ck1 & p & q & -> & (-> & H) & K)]; [left; exact H|]. right. exists ck1, p, q. auto.
    + intros [H|(ck & p & q & -> & H & K)]; [left; exact H|]. right. exists c, ck, p, q. auto.
Qed.
(* the statement before *)
Lemma tr_one c sql m : N.of_nat (length (utf8_encode sql)) < 16777215 -> tr c (statement sql m) (fun c' _ ps => c' = c /\ exists p, ps = [p] /\ not_byte 0xFF (fst p)) Xno.
Proof. intros L. unfold statement. apply tr_write_bind; [unfold query_command; cbn [length app]; lia|]. apply tr_check_end. Qed.
Definition setup_ok (pr : provider) (o : options) (ps : list packet) (o' : options) (ck : checksum) : Prop := exists p q, ps = p ++ q /\ sums_ok o p o' ck /\ request_ok pr o' q /\ short_name o'.
Definition setup_stops (pr : provider) (o : options) (ps : list packet) : Prop :=
  pos_stops o ps \/
  (exists qs o' rs, ps = qs ++ rs /\ started o qs o' /\ (rows_huge rs \/ rows_are rs [])) \/
  (exists qs o' ck rs, ps = qs ++ rs /\ sums_ok o qs o' ck /\ request_ok pr o' rs /\ ~ short_name o').
Lemma tr_set_up pr c : fits (c_opts c) ->
  tr c (set_up bl ev st pr) (fun c' ck ps => exists o', c' = Client o' false None None /\ setup_ok pr (c_opts c) ps o' ck) (setup_stops pr (c_opts c)).
Proof.
  intros F. unfold set_up. apply tr_client_bind, tr_set_bind. unfold client_reset. set (o := c_opts c) in *. eapply tr_conv.
  - apply (tr_bind (Client o false None None) _ _ _ _
      (fun c1 _ c' ck ps => c' = c1 /\ exists a p q, ps = a :: p ++ q /\ not_byte 0xFF (fst a) /\ sums3 ck p /\ request_ok pr (c_opts c1) q /\ short_name (c_opts c1))
      (fun c1 _ ps => exists a rs, ps = a :: rs /\ not_byte 0xFF (fst a) /\ (sums3_stops rs \/ exists ck p q, rs = p ++ q /\ sums3 ck p /\ request_ok pr (c_opts c1) q /\ ~ short_name (c_opts c1)))
      (tr_adjust o false None None)).
    intros c1 [] p N (o' & -> & H). destruct (status_fits _ _ _ F N H) as (F1 & F2 & F3). eapply tr_conv.
    + apply (tr_bind (Client o' false None None) _ _ _ _ (fun c1 _ c' ck ps => c' = Client o' false None None /\ exists p q, ps = p ++ q /\ sums3 ck p /\ request_ok pr o' q /\ short_name o')
        (fun c1 _ ps => sums3_stops ps \/ exists ck p q, ps = p ++ q /\ sums3 ck p /\ request_ok pr o' q /\ ~ short_name o')
        (tr_one (Client o' false None None) (heartbeat_sql (s_heartbeat st)) (tx "Setting master heartbeat error.") ltac:(pose proof (heartbeat_sql_length _ HB); lia))).
      intros c1 [] q NQ (-> & _). exact (tr_rest3 pr (Client o' false None None) F1 F2 F3).
    + intros c' ck ps _. cbn [c_opts]. split.
      * intros (c1 & [] & p1 & q1 & -> & (-> & a & -> & NB) & -> & p2 & q2 & -> & K). split; [reflexivity|]. exists a, p2, q2. auto.
      * intros (-> & a & p2 & q2 & -> & NB & K). exists (Client o' false None None), tt, [a], (p2 ++ q2). split; [reflexivity|]. split; [eauto|]. split; [reflexivity|]. eauto.
    + intros ps _. cbn [c_opts]. unfold Xno. split.
      * intros [[]|(c1 & [] & p1 & q1 & -> & (-> & a & -> & NB) & K)]. exists a, q1. auto.
      * intros (a & rs & -> & NB & K). right. exists (Client o' false None None), tt, [a], rs. split; [reflexivity|]. split; [eauto|exact K].
  - intros c' ck ps _. split.
    + intros (c1 & [] & p & q & -> & (o' & -> & H) & -> & a & p2 & q2 & -> & NB & (a2 & rs & cells & rows & -> & NB2 & R) & K1 & K2). cbn [c_opts] in *. exists o'. split; [reflexivity|].
      exists ((p ++ [a; a2]) ++ rs), q2. split; [cbn [app]; rewrite <- !app_assoc; reflexivity|]. split; [|auto]. exists (p ++ [a; a2]), rs, cells, rows. split; [reflexivity|]. split; [|exact R]. exists p, a, a2. auto.
    + intros (o' & -> & p & q & -> & (qs & rs & cells & rows & -> & (p0 & a & a2 & -> & H & NB & NB2) & R) & K1 & K2).
      exists (Client o' false None None), tt, p0, (a :: (a2 :: rs) ++ q). split; [cbn [app]; rewrite <- !app_assoc; reflexivity|]. split; [eauto|]. split; [reflexivity|]. cbn [c_opts].
      exists a, (a2 :: rs), q. split; [reflexivity|]. split; [exact NB|]. split; [|auto]. exists a2, rs, cells, rows. auto.
  - intros ps _. unfold setup_stops. split.
    + intros [H|(c1 & [] & p & q & -> & (o' & -> & H) & a & rs & -> & NB & [(a2 & rs2 & -> & NB2 & K)|(ck & p2 & q2 & -> & (a2 & rs2 & cells & rows & -> & NB2 & R) & K1 & K2)])]; cbn [c_opts] in *; [left; exact H| |].
      * right. left. exists (p ++ [a; a2]), o', rs2. split; [rewrite <- app_assoc; reflexivity|]. split; [|exact K]. exists p, a, a2. auto.
      * right. right. exists ((p ++ [a; a2]) ++ rs2), o', ck, q2. split; [cbn [app]; rewrite <- !app_assoc; reflexivity|]. split; [|auto]. exists (p ++ [a; a2]), rs2, cells, rows. split; [reflexivity|]. split; [|exact R]. exists p, a, a2. auto.
    + intros [H|[(qs & o' & rs & -> & (p0 & a & a2 & -> & H & NB & NB2) & K)|(qs & o' & ck & rs & -> & (qs2 & rs2 & cells & rows & -> & (p0 & a & a2 & -> & H & NB & NB2) & R) & K1 & K2)]]; [left; exact H| |]; right.
      * exists (Client o' false None None), tt, p0, (a :: a2 :: rs). split; [rewrite <- app_assoc; reflexivity|]. split; [eauto|]. exists a, (a2 :: rs). split; [reflexivity|]. split; [exact NB|]. left. exists a2, rs. auto.
      * exists (Client o' false None None), tt, p0, (a :: (a2 :: rs2) ++ rs). split; [cbn [app]; rewrite <- !app_assoc; reflexivity|]. split; [eauto|]. exists a, ((a2 :: rs2) ++ rs). split; [reflexivity|]. split; [exact NB|]. right.
        exists ck, (a2 :: rs2), rs. cbn [c_opts]. split; [reflexivity|]. split; [|auto]. exists a2, rs2, cells, rows. auto.
Qed.

(* ---- all of it ---- *)
Context (HH : hashes ev) (NF : names_fit st).
Context (RS : forall k m, rsa (e_crypto ev) k m <> Panic /\ forall e, rsa (e_crypto ev) k m = Ok e -> N.of_nat (length e) < 16777216).
Definition all_stops (o : options) (ps : list packet) : Prop := login_stops bl ev st ps \/ exists pr p q, ps = p ++ q /\ login_ok bl ev st p pr /\ setup_stops pr o q.
Lemma tr_replicate c : fits (c_opts c) ->
  tr c (replicate bl ev st) (fun c' ck ps => exists o', c' = Client o' false None None /\ talk_ok bl ev st (c_opts c) ps o' ck) (all_stops (c_opts c)).
Proof.
  intros F. rewrite replicate_eq. eapply tr_conv.
  - apply (tr_bind c _ _ _ _ (fun c1 pr c' ck ps => exists o', c' = Client o' false None None /\ setup_ok pr (c_opts c) ps o' ck) (fun c1 pr => setup_stops pr (c_opts c)) (tr_connect bl ev st HH NF RS c)).
    intros c1 pr p _ (-> & _). now apply tr_set_up.
  - intros c' ck ps _. split.
    + intros (c1 & pr & p & q & -> & (-> & L) & o' & -> & p2 & p3 & -> & H). exists o'. split; [reflexivity|]. exists p, p2, p3, pr. auto.
    + intros (o' & -> & p1 & p2 & p3 & pr & -> & L & H). exists c, pr, p1, (p2 ++ p3). split; [reflexivity|]. split; [auto|]. exists o'. split; [reflexivity|]. exists p2, p3. auto.
  - intros ps _. split.
    + intros [H|(c1 & pr & p & q & -> & (-> & L) & H)]; [left; exact H|]. right. exists pr, p, q. auto.
    + intros [H|(pr & p & q & -> & L & H)]; [left; exact H|]. right. exists c, pr, p, q. auto.
Qed.
Lemma all_stops_talk o ps : all_stops o ps \/ ends_empty ps <-> talk_stops bl ev st o ps.
Proof.
  split.
  - intros [[[(g & h & E & H1 & H2 & H3 & H4)|[(g & h & E & H1 & H2 & H3)|(g & h & qs & E & H1 & H2 & H3)]]|(pr & p & q & E & L & H)]|(k & s & E)].
    + eapply ts_number; eassumption.
    + eapply ts_ssl; eassumption.
    + destruct H3 as [(a & -> & K1 & K2)|[(a & rs & -> & K1 & K2 & K3)|[(a & scr & b & -> & K1 & K2 & K3 & K4)|(a & scr & b & rs & -> & K1 & K2 & K3 & K4 & K5)]]].
      * eapply ts_number2; eassumption.
      * eapply ts_sha; eassumption.
      * eapply ts_number3; eassumption.
      * eapply ts_sha2; eassumption.
    + destruct H as [(FE & [(rs & rows & x & -> & K1 & K2 & K3 & K4)|(file & K)])|[(qs & o' & rs & -> & K1 & [(rs2 & rows & x & -> & K2 & K3 & K4 & K5)|K2])|(qs & o' & ck & rs & -> & K1 & K2 & K3)]].
      * eapply ts_cell; eassumption.
      * eapply ts_one_cell; eassumption.
      * eapply ts_cell2; eassumption.
      * eapply ts_no_row; eassumption.
      * eapply ts_long; eassumption.
    + eapply ts_empty; eassumption.
  - intros [k s E|g h E H1 H2 H3 H4|g h a E H1 H2 H3 H4|g h a scr b E H1 H2 H3 H4 H5 H6|g h E H1 H2 H3|g h a rs E H1 H2 H3 H4 H5|g h a scr b rs E H1 H2 H3 H4 H5 H6 H7
      |login pr rs rows p E H1 H2 H3 H4 H5 H6|login pr qs o' rs rows p E H1 H2 H3 H4 H5 H6|login pr rs file E H1 H2 H3|login pr qs o' rs E H1 H2 H3|login pr qs o' ck rs E H1 H2 H3 H4].
    + right. exists k, s. exact E.
    + left. left. left. exists g, h. auto 12.
    + left. left. right. right. exists g, h, [a]. split; [exact E|]. split; [exact H1|]. split; [exact H2|]. left. exists a. auto 12.
    + left. left. right. right. exists g, h, [a; b]. split; [exact E|]. split; [exact H1|]. split; [exact H2|]. right. right. left. exists a, scr, b. auto 12.
    + left. left. right. left. exists g, h. auto 12.
    + left. left. right. right. exists g, h, (a :: rs). split; [exact E|]. split; [exact H1|]. split; [exact H2|]. right. left. exists a, rs. auto 12.
    + left. left. right. right. exists g, h, (a :: b :: rs). split; [exact E|]. split; [exact H1|]. split; [exact H2|]. right. right. right. exists a, scr, b, rs. auto 12.
    + left. right. exists pr, login, (rs ++ [p]). split; [exact E|]. split; [exact H1|]. left. split; [exact H2|]. left. exists rs, rows, p. auto 12.
    + left. right. exists pr, login, (qs ++ rs ++ [p]). split; [exact E|]. split; [exact H1|]. right. left. exists qs, o', (rs ++ [p]). split; [reflexivity|]. split; [exact H2|]. left. exists rs, rows, p. auto 12.
    + left. right. exists pr, login, rs. split; [exact E|]. split; [exact H1|]. left. split; [exact H2|]. right. eauto.
    + left. right. exists pr, login, (qs ++ rs). split; [exact E|]. split; [exact H1|]. right. left. exists qs, o', rs. auto 12.
    + left. right. exists pr, login, (qs ++ rs). split; [exact E|]. split; [exact H1|]. right. right. exists qs, o', ck, rs. auto 12.
Qed.
End SetUp.
