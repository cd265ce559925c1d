(* Debug and release builds agree unless the debug build panics (C85). *)
From Coq Require Import Strings.String.
From Verif Require Import Base.Tac Base.Bytes Base.Text Base.Res Base.Str Base.Parse Base.Loop Model.Codec Model.Values Model.Decimal Model.Cells
  Model.TableMap Model.Rows Model.Gtid Model.GtidMaria Model.Events Model.Reader Model.Responses Model.Channel Model.Client Model.Commands Model.Session.
Local Open Scope N_scope.

Definition agree {A} (d r : res A) : Prop := d = Panic \/ d = r.
Lemma agree_refl {A} (r : res A) : agree r r.
Proof. now right. Qed.
Lemma agree_panic {A} (r : res A) : agree Panic r.
Proof. now left. Qed.
Lemma agree_rbind {A B} (d r : res A) (f g : A -> res B) : agree d r -> (forall a, agree (f a) (g a)) -> agree (rbind d f) (rbind r g).
Proof. intros [->| ->] H; [now left|]. destruct r; cbn [rbind]; auto using agree_refl. Qed.
Lemma agree_uadd m x y : agree (uadd m Debug x y) (uadd m Release x y).
Proof. unfold uadd. destruct (x + y <? m); [now right|now left]. Qed.
Lemma agree_usub m x y : agree (usub m Debug x y) (usub m Release x y).
Proof. unfold usub. destruct (y <=? x); [now right|now left]. Qed.
Lemma agree_umul m x y : agree (umul m Debug x y) (umul m Release x y).
Proof. unfold umul. destruct (x * y <? m); [now right|now left]. Qed.

(* parsers *)
Definition pagree {A} (d r : parser A) : Prop := forall buf pos, agree (d buf pos) (r buf pos).
Lemma pagree_refl {A} (p : parser A) : pagree p p.
Proof. intros buf pos. now right. Qed.
Lemma pagree_panic {A} (r : parser A) : pagree (fun _ _ => Panic) r.
Proof. intros buf pos. now left. Qed.
Lemma pagree_bind {A B} (d r : parser A) (f g : A -> parser B) : pagree d r -> (forall a, pagree (f a) (g a)) -> pagree (pbind d f) (pbind r g).
Proof.
  intros H1 H2 buf pos. unfold pbind. destruct (H1 buf pos) as [->| ->]; [now left|].
  destruct (r buf pos) as [[a p]|e| |]; [apply H2|now right..].
Qed.
Lemma pagree_lift {A} (d r : res A) : agree d r -> pagree (lift d) (lift r).
Proof. intros [->| ->] buf pos; [now left|now right]. Qed.
Lemma pagree_pmap {A B} (f : A -> B) d r : pagree d r -> pagree (pmap f d) (pmap f r).
Proof. intros H. apply pagree_bind; [exact H|intros a; apply pagree_refl]. Qed.
Lemma pagree_while {A} (d r : parser A) : pagree d r -> pagree (pwhile d) (pwhile r).
Proof.
  intros H buf. unfold pwhile. generalize (S (length buf)) as fuel. induction fuel as [|f IH]; intros pos; cbn [pwhile_aux]; destruct (pos <? length buf)%nat; try now right.
  unfold pbind. destruct (H buf pos) as [->| ->]; [now left|]. destruct (r buf pos) as [[a p]|e| |]; try now right.
  destruct (IH p) as [->| ->]; [now left|now right].
Qed.
Lemma pagree_loop {A} n (d r : parser A) : pagree d r -> pagree (ploop n d) (ploop n r).
Proof.
  intros H buf pos. unfold ploop. generalize (S (length buf)) as fuel. intros fuel. revert n pos. induction fuel as [|f IH]; intros n pos; cbn [ploop_aux]; destruct (n =? 0); try now right.
  unfold pbind. destruct (H buf pos) as [->| ->]; [now left|]. destruct (r buf pos) as [[a p]|e| |]; try now right.
  destruct (IH (n - 1) p) as [->| ->]; [now left|now right].
Qed.

Ltac same := match goal with
  | |- pagree ?x ?x => exact (pagree_refl x)
  | |- agree ?x ?x => exact (agree_refl x)
  | |- pagree (fun _ _ => Panic) _ => exact (pagree_panic _)
  | |- agree Panic _ => exact (agree_panic _)
  | |- agree (uadd _ Debug _ _) _ => exact (agree_uadd _ _ _)
  | |- agree (usub _ Debug _ _) _ => exact (agree_usub _ _ _)
  | |- agree (umul _ Debug _ _) _ => exact (agree_umul _ _ _)
  end.
Ltac ag := repeat first
  [ same
  | match goal with
    | |- pagree (pmap _ _) _ => apply pagree_pmap
    | |- pagree (pwhile _) _ => apply pagree_while
    | |- pagree (ploop _ _) _ => apply pagree_loop
    | |- pagree (lift _) _ => apply pagree_lift
    | |- pagree (pbind _ _) _ => apply pagree_bind; [|intros ?]
    | |- agree (rbind _ _) _ => apply agree_rbind; [|intros ?]
    end ].

Lemma agree_fractional m : pagree (parse_fractional Debug m) (parse_fractional Release m).
Proof. unfold parse_fractional. ag. destruct (a / 2 =? 0); ag. destruct (a / 2 <=? 3); ag. Qed.
Lemma agree_decimal m : pagree (parse_decimal Debug m) (parse_decimal Release m).
Proof. unfold parse_decimal. cbv zeta. ag. Qed.
Lemma agree_cell ty m : pagree (parse_cell Debug ty m) (parse_cell Release ty m).
Proof.
  unfold parse_cell. apply pagree_bind; [ag|]. intros ct. unfold parse_time2, parse_date_time2, parse_timestamp2.
  destruct ct; ag; first [apply agree_decimal | apply agree_fractional].
Qed.
Lemma agree_columns types : forall metas present nulls, pagree (parse_columns Debug types metas present nulls) (parse_columns Release types metas present nulls).
Proof.
  induction types as [|ty types IH]; intros metas present nulls; cbn [parse_columns]; [ag|].
  destruct present as [|[|] present]; [ag| |]; [|ag; apply IH]. destruct nulls as [|[|] nulls]; [ag|ag; apply IH|].
  destruct metas as [|m metas]; [ag|]. apply pagree_bind; [ag|]. intros ct. destruct (match ct with CtString => _ | _ => _ end) as [ty2 m2].
  apply pagree_bind; [apply agree_cell|]. intros v. ag. apply IH.
Qed.
Lemma agree_row t ps n : pagree (parse_row Debug t ps n) (parse_row Release t ps n).
Proof. unfold parse_row. ag. apply agree_columns. Qed.
Lemma agree_rows ts v : pagree (parse_rows_event Debug ts v) (parse_rows_event Release ts v).
Proof.
  unfold parse_rows_event. apply pagree_bind; [ag|]. intros [[id fl] n]. apply pagree_bind; [ag|]. intros ps. apply pagree_bind; [|intros; ag].
  unfold parse_row_list. destruct (tables_get id ts); [|ag]. apply pagree_while, agree_row.
Qed.
Lemma agree_updates ts v : pagree (parse_update_event Debug ts v) (parse_update_event Release ts v).
Proof.
  unfold parse_update_event. apply pagree_bind; [ag|]. intros [[id fl] n]. apply pagree_bind; [ag|]. intros b. apply pagree_bind; [ag|]. intros a. apply pagree_bind; [|intros; ag].
  unfold parse_update_row_list. destruct (tables_get id ts); [|ag]. apply pagree_while. repeat (apply pagree_bind; [apply agree_row|intros ?]). ag.
Qed.
Lemma agree_format h : pagree (parse_format_description Debug h) (parse_format_description Release h).
Proof. unfold parse_format_description. ag. Qed.
Lemma agree_prev : pagree (parse_prev_gtids Debug) (parse_prev_gtids Release).
Proof. unfold parse_prev_gtids, prev_uuid_set, prev_interval. ag. Qed.
Lemma agree_body ts h : pagree (event_body Debug ts h) (event_body Release ts h).
Proof.
  unfold event_body. cbv zeta.
  repeat match goal with |- pagree (if ?c then _ else _) _ => destruct c; [apply pagree_pmap; match goal with
      | |- pagree (parse_format_description _ _) _ => apply agree_format
      | |- pagree (parse_rows_event _ _ _) _ => apply agree_rows
      | |- pagree (parse_update_event _ _ _) _ => apply agree_updates
      | |- pagree (parse_prev_gtids _) _ => apply agree_prev
      | _ => same
      end|] end. ag.
Qed.
Lemma agree_event st h bs : agree (parse_event Debug st h bs) (parse_event Release st h bs).
Proof.
  unfold parse_event. apply agree_rbind; [ag|]. intros p. destruct (agree_body (ps_tables st) h p 0%nat) as [->| ->]; [now left|now right].
Qed.

(* GTID sets *)
Lemma agree_collapse fuel : forall ivs i, agree (collapse_loop fuel Debug ivs i) (collapse_loop fuel Release ivs i).
Proof.
  induction fuel as [|f IH]; intros ivs i; cbn [collapse_loop]; destruct (i <? length ivs - 1)%nat; ag.
  destruct (nth_error ivs i) as [l|]; [|ag]. destruct (nth_error ivs (i + 1)) as [r|]; [|ag]. apply agree_rbind; [ag|]. intros e. destruct (e =? istart r); apply IH.
Qed.
Lemma agree_set_new src ivs : agree (uuid_set_new Debug src ivs) (uuid_set_new Release src ivs).
Proof. unfold uuid_set_new. apply agree_rbind; [|intros; ag]. destruct (1 <? length ivs)%nat; [apply agree_collapse|ag]. Qed.
Lemma agree_touch ivs i t : agree (touch_interval Debug ivs i t) (touch_interval Release ivs i t).
Proof.
  unfold touch_interval. destruct (nth_error ivs i) as [x|]; [|ag]. apply agree_rbind; [ag|]. intros t1. destruct (istart x =? t1); [ag|].
  apply agree_rbind; [ag|]. intros e1. ag.
Qed.
Lemma agree_uuid_add s g : agree (uuid_set_add Debug s g) (uuid_set_add Release s g).
Proof.
  unfold uuid_set_add. destruct (negb _); [ag|]. cbv zeta. apply agree_rbind; [ag|]. intros i. apply agree_rbind; [apply agree_touch|]. intros [[ivs added]|]; [|ag].
  apply agree_rbind; [|intros; ag]. destruct (1 <? length _)%nat; [apply agree_collapse|ag].
Qed.
Lemma agree_set_add s g : agree (gtid_set_add Debug s g) (gtid_set_add Release s g).
Proof. unfold gtid_set_add. cbv zeta. apply agree_rbind; [apply agree_uuid_add|intros; ag]. Qed.
Lemma agree_parts ps : forall acc, agree (parse_parts Debug ps acc) (parse_parts Release ps acc).
Proof.
  induction ps as [|p ps IH]; intros acc; cbn [parse_parts]; [ag|]. apply agree_rbind; [|intros; apply IH].
  unfold parse_uuid_part. apply agree_rbind; [ag|]. intros src. apply agree_rbind; [ag|]. intros ivs. apply agree_rbind; [apply agree_set_new|intros; ag].
Qed.
Lemma agree_parse t : agree (gtid_set_parse Debug t) (gtid_set_parse Release t).
Proof. unfold gtid_set_parse. destruct t; [ag|apply agree_parts]. Qed.

(* the client *)
Lemma agree_commit_gtid c : agree (commit_gtid Debug c) (commit_gtid Release c).
Proof.
  unfold commit_gtid. cbv zeta. apply agree_rbind; [|intros; ag]. destruct (c_mysql c) as [g|]; [|ag].
  match goal with |- agree (match ?o with _ => _ end) _ => destruct o as [s|]; [|ag] end. destruct (agree_set_add s g) as [->| ->]; ag.
Qed.
Lemma agree_commit c h e : agree (commit Debug c h e) (commit Release c h e).
Proof.
  unfold commit. apply agree_rbind; [|intros; ag]. unfold update_gtid_position. destruct (negb (strategy_eqb _ _)); [ag|].
  destruct e; try same; try apply agree_commit_gtid. destruct (q_sql q); [ag|].
  repeat match goal with |- agree (if ?c then _ else _) _ => destruct c end; try same; apply agree_commit_gtid.
Qed.
Lemma agree_commit_all es : forall c, agree (commit_all Debug c es) (commit_all Release c es).
Proof. induction es as [|[h e] es IH]; intros c; cbn [commit_all]; [ag|]. apply agree_rbind; [apply agree_commit|intros; apply IH]. Qed.

(* the iterators *)
Ltac eqr := match goal with |- _ \/ ?x = ?x => right; exact eq_refl end.
Lemma agree_next rd : fst (next Debug rd) = Panic \/ next Debug rd = next Release rd.
Proof.
  assert (W : forall h st bs rd', fst (with_event h (parse_event Debug st h bs) rd') = Panic \/ with_event h (parse_event Debug st h bs) rd' = with_event h (parse_event Release st h bs) rd').
  { intros h st bs rd'. destruct (agree_event st h bs) as [->| ->]; [left; reflexivity|eqr]. }
  assert (R : fst (read_event Debug rd) = Panic \/ read_event Debug rd = read_event Release rd).
  { unfold read_event. destruct (read_exact event_header_size (rd_file rd)) as [[hb|e| |] rest]; try eqr. cbv zeta.
    destruct (parse_header hb) as [h|e| |]; try eqr. destruct (agree_usub u64max1 (h_length h) event_header_size) as [->| ->]; [left; reflexivity|].
    destruct (usub u64max1 Release (h_length h) event_header_size) as [n|e| |]; try eqr. destruct (payload_buffer_size <? n).
    - destruct (alloc n); try eqr. destruct (read_exact n rest) as [[v|e| |] rest']; try eqr. apply W.
    - destruct (read_exact n rest) as [[v|e| |] rest']; try eqr. apply W. }
  unfold next. destruct R as [R|R]; [|rewrite R; eqr]. destruct (read_event Debug rd) as [r rd']. cbn [fst] in R. subst r. now left.
Qed.
Lemma agree_stream s : fst (stream_next Debug s) = Panic \/ stream_next Debug s = stream_next Release s.
Proof.
  unfold stream_next. destruct (read_packet (sm_in s)) as [[[p q]|e| |] cs]; try eqr. destruct (byte_at p 0) as [b|e| |]; try eqr.
  destruct (b =? resp_ok); [|eqr].
  assert (S : agree (stream_event Debug (sm_parser s) p) (stream_event Release (sm_parser s) p)).
  { unfold stream_event. apply agree_rbind; [ag|]. intros h. destruct (length p <? 20)%nat; [ag|]. apply agree_rbind; [apply agree_event|intros; ag]. }
  destruct S as [->| ->]; [left; reflexivity|eqr].
Qed.

(* conversations: what a panicking debug build sent and received before, the release build sends and receives too *)
Definition extends (w w' : world) : Prop := exists more, w_log w' = w_log w ++ more.
Lemma extends_refl w : extends w w.
Proof. exists []. now rewrite app_nil_r. Qed.
Lemma extends_trans a b c : extends a b -> extends b c -> extends a c.
Proof. intros [x X] [y Y]. exists (x ++ y). now rewrite Y, X, app_assoc. Qed.
Definition grows {A} (p : act A) : Prop := forall w, extends w (snd (p w)).
Definition aagree {A} (d r : act A) : Prop :=
  grows r /\ forall w, (fst (d w) = Panic /\ extends (snd (d w)) (snd (r w))) \/ d w = r w.
Lemma aagree_same {A} (p : act A) : grows p -> aagree p p.
Proof. intros H. split; [exact H|]. now right. Qed.
Lemma aagree_bind {A B} (d r : act A) (f g : A -> act B) : aagree d r -> (forall a, aagree (f a) (g a)) -> aagree (abind d f) (abind r g).
Proof.
  intros [G1 H1] H2. assert (G : grows (abind r g)).
  { intros w. unfold abind. specialize (G1 w). destruct (r w) as [[a|e| |] w']; cbn [snd] in *; try exact G1. eapply extends_trans; [exact G1|]. apply H2. }
  split; [exact G|]. intros w. destruct (H1 w) as [[P E]|E].
  - left. unfold abind at 1 2. destruct (d w) as [x w']. cbn [fst snd] in *. subst x. split; [reflexivity|]. eapply extends_trans; [exact E|].
    unfold abind. destruct (r w) as [[a|e| |] w2]; cbn [snd]; try apply extends_refl. apply H2.
  - unfold abind. rewrite E. destruct (r w) as [[a|e| |] w']; try now right. apply H2.
Qed.
Lemma aagree_lift {A} (d r : res A) : agree d r -> aagree (alift d) (alift r).
Proof. intros H. split; [intros w; apply extends_refl|]. intros w. destruct H as [->| ->]; [left; split; [reflexivity|apply extends_refl]|now right]. Qed.
Lemma aagree_ret {A} (a : A) : aagree (aret a) (aret a).
Proof. apply aagree_same. intros w. apply extends_refl. Qed.
Lemma aagree_read : aagree a_read a_read.
Proof. apply aagree_same. intros w. unfold a_read. destruct (read_packet (w_in w)) as [[[p s]|e| |] cs]; cbn [snd]; try apply extends_refl; eexists; try reflexivity; cbn [w_log]; now rewrite app_nil_r. Qed.
Lemma aagree_write p s : aagree (a_write p s) (a_write p s).
Proof. apply aagree_same. intros w. unfold a_write. destruct (_ <=? _); cbn [snd]; [apply extends_refl|]. eexists. reflexivity. Qed.
Lemma aagree_client : aagree a_client a_client.
Proof. apply aagree_same. intros w. apply extends_refl. Qed.
Lemma aagree_set c : aagree (a_set_client c) (a_set_client c).
Proof. apply aagree_same. intros w. exists []. cbn. now rewrite app_nil_r. Qed.

Ltac aag := repeat match goal with
  | |- aagree (aret _) _ => apply aagree_ret
  | |- aagree a_read _ => apply aagree_read
  | |- aagree (a_write _ _) _ => apply aagree_write
  | |- aagree a_client _ => apply aagree_client
  | |- aagree (a_set_client _) _ => apply aagree_set
  | |- aagree (alift _) _ => apply aagree_lift; same
  | |- aagree (abind _ _) _ => apply aagree_bind; [|intros ?]
  | |- aagree (if ?c then _ else _) _ => destruct c
  end.
Lemma agree_sha ev st p sc seq ssl : aagree (authenticate_sha_256 Debug ev st p sc seq ssl) (authenticate_sha_256 Release ev st p sc seq ssl).
Proof. unfold authenticate_sha_256. cbv zeta. aag. Qed.
Lemma agree_switch ev st sw seq ssl : aagree (handle_switch Debug ev st sw seq ssl) (handle_switch Release ev st sw seq ssl).
Proof. unfold handle_switch. aag. apply agree_sha. Qed.
Lemma agree_authenticate ev st hs p seq : aagree (authenticate Debug ev st hs p seq) (authenticate Release ev st hs p seq).
Proof. unfold authenticate. aag; first [apply agree_switch | apply agree_sha]. Qed.
Lemma agree_connect ev st : aagree (connect Debug ev st) (connect Release ev st).
Proof. unfold connect. aag. apply agree_authenticate. Qed.
Lemma agree_columns_skipped f : aagree (skip_columns f) (skip_columns f).
Proof. induction f as [|f IH]; cbn [skip_columns]; aag. exact IH. Qed.
Lemma agree_rows_read f : forall acc, aagree (read_rows f acc) (read_rows f acc).
Proof. induction f as [|f IH]; intros acc; cbn [read_rows]; aag. apply IH. Qed.
Lemma agree_fuel {A} (g : nat -> act A) : (forall n, aagree (g n) (g n)) -> aagree (fun w => g (in_size (w_in w)) w) (fun w => g (in_size (w_in w)) w).
Proof. intros H. apply aagree_same. intros w. apply (H (in_size (w_in w))). Qed.
Lemma agree_result_set : aagree read_result_set read_result_set.
Proof.
  unfold read_result_set. aag; [apply (agree_fuel skip_columns), agree_columns_skipped|apply (agree_fuel (fun n => read_rows n [])); intros n; apply agree_rows_read].
Qed.
Lemma agree_adjust : aagree adjust_starting_position adjust_starting_position.
Proof.
  unfold adjust_starting_position. apply aagree_bind; [aag|]. intros c. destruct (negb (strategy_eqb (o_strategy (c_opts c)) FromEnd)); [aag|].
  destruct (o_file (c_opts c)); [|aag]. apply aagree_bind; [aag|]. intros _. apply aagree_bind; [apply agree_result_set|].
  intros [|[|f r] [|? ?]]; aag. destruct r as [|p r]; aag.
Qed.
Lemma agree_statement s m : aagree (statement s m) (statement s m).
Proof. unfold statement. aag. Qed.
Lemma agree_checksum : aagree set_master_binlog_checksum set_master_binlog_checksum.
Proof. unfold set_master_binlog_checksum. aag; [apply agree_statement|apply agree_result_set|]. destruct a1 as [|[|? ?] ?]; aag. Qed.
Lemma agree_dump_intervals ivs : agree (dump_intervals Debug ivs) (dump_intervals Release ivs).
Proof. induction ivs as [|i ivs IH]; cbn [dump_intervals]; [ag|]. apply agree_rbind; [ag|]. intros e. apply agree_rbind; [exact IH|intros; ag]. Qed.
Lemma agree_dump_sets s : agree (dump_sets Debug s) (dump_sets Release s).
Proof. induction s as [|e s IH]; cbn [dump_sets]; [ag|]. apply agree_rbind; [apply agree_dump_intervals|]. intros a. apply agree_rbind; [exact IH|intros; ag]. Qed.
Lemma agree_dump id f p s : agree (dump_gtid_command Debug id f p s) (dump_gtid_command Release id f p s).
Proof. unfold dump_gtid_command. apply agree_rbind; [apply agree_dump_sets|intros; ag]. Qed.
Lemma agree_mysql ev id : aagree (replicate_mysql Debug ev id) (replicate_mysql Release ev id).
Proof. unfold replicate_mysql. cbv zeta. aag. destruct (o_set (c_opts a)); aag. apply aagree_lift, agree_dump. Qed.
Lemma agree_mariadb st id : aagree (replicate_mariadb st id) (replicate_mariadb st id).
Proof.
  unfold replicate_mariadb. cbv zeta. aag; [apply agree_statement|]. destruct (o_list (c_opts a0)); aag. unfold register_gtid_slave. aag; apply agree_statement.
Qed.
Lemma agree_replicate ev st : aagree (replicate Debug ev st) (replicate Release ev st).
Proof.
  unfold replicate. cbv zeta. apply aagree_bind; [apply agree_connect|]. intros pr. apply aagree_bind; [aag|]. intros c. apply aagree_bind; [aag|]. intros _.
  apply aagree_bind; [apply agree_adjust|]. intros _. apply aagree_bind; [unfold set_master_heartbeat; apply agree_statement|]. intros _.
  apply aagree_bind; [apply agree_checksum|]. intros ck. apply aagree_bind; [|intros _; aag]. destruct pr; [apply agree_mariadb|apply agree_mysql].
Qed.
