(* Claimed property of a program that keeps copies of the server's tables: C101. *)
From Coq Require Import Sorting.Permutation Strings.String.
From Verif Require Import Base.Tac Base.Bytes Base.Text Base.Res Base.Str Model.Values Model.TableMap Model.Rows Model.Events Model.Client Model.Channel Model.Session Model.Reader
  Spec.GtidSpec Spec.CodecSpec Spec.EventSpec Spec.CellSpec Spec.TableSpec Spec.RowSpec Spec.ClientSpec Spec.ChannelSpec Spec.PipelineSpec Spec.ReaderSpec Spec.MariaSessionSpec Spec.CopySpec
  Proofs.ClientProofs Proofs.ChannelProofs Proofs.PipelineProofs Props.RowProps Props.ChannelProps Props.SessionProps Props.ClientProps Props.PipelineProps Props.MariaProps Props.FileProps Props.CommandProps Props.PlaceProps Spec.SessionSpec Spec.PositionSessionSpec.
Local Open Scope N_scope.

Lemma agrees_spec mask : forall img r, agrees mask img r = true <-> matches mask img r.
Proof.
  induction mask as [|m ms IH]; intros [|i is] [|x xs]; cbn [agrees matches]; try (split; [discriminate|tauto]); [tauto|].
  rewrite andb_true_iff, IH. destruct m; [destruct (cell_eq x i)|]; intuition congruence.
Qed.
Lemma overwrite_spec mask : forall img r r', matches mask img r' -> unchanged mask r r' -> overwrite mask img r = r'.
Proof.
  induction mask as [|m ms IH]; intros [|i is] [|x xs] [|y ys]; cbn [matches unchanged overwrite]; try tauto.
  intros [A B] [C D]. f_equal; [|eauto]. destruct m; [symmetry|symmetry]; auto.
Qed.
(* the copy's first matching row is the server's *)
Lemma first_match mask img r others t : identifies mask img r others -> Permutation (r :: others) t ->
  exists a b, t = a ++ r :: b /\ Permutation others (a ++ b) /\ Forall (fun x => agrees mask img x = false) a.
Proof.
  intros [M U] P. assert (E : exists a x b, t = a ++ x :: b /\ agrees mask img x = true /\ Forall (fun x => agrees mask img x = false) a).
  { assert (I : In r t) by (apply (Permutation_in _ P); now left). clear P. induction t as [|y t IH]; [destruct I|]. destruct (agrees mask img y) eqn:A.
    - exists [], y, t. auto.
    - destruct I as [->|I]; [apply agrees_spec in M; congruence|]. destruct (IH I) as (a & x & b & -> & X & F). exists (y :: a), x, b. auto. }
  destruct E as (a & x & b & -> & X & F). assert (R : x = r).
  { assert (I : In x (r :: others)) by (apply (Permutation_in _ (Permutation_sym P)), in_or_app; right; now left). destruct I as [I|I]; [now symmetry|]. apply U; [exact I|now apply agrees_spec]. }
  subst x. exists a, b. split; [reflexivity|]. split; [|exact F]. apply (Permutation_cons_app_inv a b P).
Qed.
Lemma take_out_at mask img a r b : Forall (fun x => agrees mask img x = false) a -> agrees mask img r = true -> take_out mask img (a ++ r :: b) = Some (a ++ b).
Proof. induction 1 as [|x a X _ IH]; intros R; cbn [app take_out]; [now rewrite R|]. rewrite X, (IH R). reflexivity. Qed.
Lemma replace_at m1 m2 img img' a r b : Forall (fun x => agrees m1 img x = false) a -> agrees m1 img r = true ->
  replace m1 m2 img img' (a ++ r :: b) = Some (a ++ overwrite m2 img' r :: b).
Proof. induction 1 as [|x a X _ IH]; intros R; cbn [app replace]; [now rewrite R|]. rewrite X, (IH R). reflexivity. Qed.
Lemma all_true l : Forall (fun b : bool => b = true) l -> forallb (fun b => b) l = true.
Proof. induction 1 as [|b l -> _ IH]; [reflexivity|exact IH]. Qed.
Lemma change_applied e t t' : changes e t t' -> forall c, Permutation t c -> exists c', apply_rows e c = Some c' /\ Permutation t' c'.
Proof.
  intros H. destruct H as [e t A|e t t' D|e t t' U]; intros c P; cbn [apply_rows].
  - rewrite (all_true _ A). eexists. split; [reflexivity|]. now apply Permutation_app_tail.
  - revert c P. induction D as [t|img imgs a r b t I D IH]; intros c P; cbn [take_out_all]; [eauto|].
    destruct (first_match _ _ r (a ++ b) c I) as (ca & cb & -> & P2 & F); [rewrite <- P; apply Permutation_middle|].
    rewrite take_out_at; [|exact F|apply agrees_spec, I]. apply IH. exact P2.
  - revert c P. induction U as [t|img img' imgs a r r' b t I M N U IH]; intros c P; cbn [replace_all]; [eauto|].
    destruct (first_match _ _ r (a ++ b) c I) as (ca & cb & -> & P2 & F); [rewrite <- P; apply Permutation_middle|].
    rewrite replace_at; [|exact F|apply agrees_spec, I]. apply IH. rewrite (overwrite_spec _ _ _ _ M N). rewrite <- !Permutation_middle. now constructor.
Qed.

Lemma works_written w d es ps w2 d2 : works w d es ps w2 d2 -> log_written w es ps w2.
Proof. induction 1; econstructor; eassumption. Qed.
Lemma works_app w d es ps w1 d1 : works w d es ps w1 d1 -> forall es2 ps2 w2 d2, works w1 d1 es2 ps2 w2 d2 -> works w d (es ++ es2) (ps ++ ps2) w2 d2.
Proof. induction 1; intros es2 ps2 w3 d3 H22; cbn [app]; [exact H22|eapply wk_other; eauto|eapply wk_rows; eauto]. Qed.
Lemma works_length w d es ps w1 d1 : works w d es ps w1 d1 -> length es = length ps.
Proof. induction 1; cbn [length]; congruence. Qed.
(* the names the program knows are those of the server's descriptions *)
Definition knows (c : copy) (w : writer) : Prop := forall id, name_of c id = option_map (fun t => (t_db t, t_name t)) (described w id).
Lemma writes_names w h e bs w1 : writes w (h, e) bs w1 -> (exists t, e = EvTableMap (table_map_of t) /\ wr_tables w1 = t :: wr_tables w) \/ ((forall t, e <> EvTableMap t) /\ wr_tables w1 = wr_tables w).
Proof.
  intros W. inversion W; subst; try (right; split; [discriminate|reflexivity]); [right|left; eauto|right].
  - match goal with H : service _ _ _ |- _ => destruct H end; (split; [discriminate|reflexivity]).
  - match goal with H : row_event _ _ _ _ |- _ => destruct H end; (split; [discriminate|reflexivity]).
Qed.
Lemma apply_other c w h e bs w1 : writes w (h, e) bs w1 -> row_table e = None -> knows c w -> exists c', apply_event c e = Some c' /\ cp_data c' = cp_data c /\ knows c' w1.
Proof.
  intros W R K. destruct (writes_names _ _ _ _ _ W) as [(t & -> & T)|[T1 T2]].
  - eexists. split; [reflexivity|]. split; [reflexivity|]. intros id. unfold name_of, described. rewrite T. cbn [cp_names find fst tb_id table_map_of].
    destruct (t_id t =? id); [reflexivity|]. apply K.
  - exists c. split; [|split; [reflexivity|]].
    + destruct e; try discriminate R; try reflexivity. now destruct (T1 t).
    + intros id. unfold described. rewrite T2. apply K.
Qed.
Lemma works_copied w d es ps w2 d2 : works w d es ps w2 d2 -> forall c, knows c w -> alike d (cp_data c) ->
  exists c', apply_events c (map snd es) = Some c' /\ knows c' w2 /\ alike d2 (cp_data c').
Proof.
  induction 1 as [w d|w d h e bs w1 s es ps w2 d2 Hh W P R WK IH|w d h e bs w1 s id t rows es ps w2 d2 Hh W P R D C WK IH]; intros c K A; cbn [map snd apply_events].
  - eauto.
  - destruct (apply_other c _ _ _ _ _ W R K) as (c' & E & E2 & K'). rewrite E. apply IH; [exact K'|]. now rewrite E2.
  - destruct (change_applied e _ _ C (cp_data c (t_db t, t_name t)) (A _)) as (rows' & AR & PR).
    assert (E : apply_event c e = Some (Copy (cp_names c) (with_rows (cp_data c) (t_db t, t_name t) rows'))).
    { pose proof (K id) as N. rewrite D in N. cbn [option_map] in N. destruct e; try discriminate R; cbn [row_table] in R; injection R as R; unfold apply_event; cbn [row_table]; rewrite R, N, AR; reflexivity. }
    rewrite E. apply IH.
    + intros i. unfold name_of. cbn [cp_names]. fold (name_of c i). destruct (writes_names _ _ _ _ _ W) as [(t' & -> & _)|[_ T]]; [discriminate R|]. unfold described. rewrite T. apply K.
    + intros n. cbn [cp_data]. unfold with_rows. destruct (same_name n _); [exact PR|apply A].
Qed.

(* ---- C101 ---- *)
(* For every server that changes tables and writes row events about it, any number of tables, any reuse of table ids, wherever the
   connection breaks: a program that applies the events handed out has, table by table, the rows the server had after the last event that
   arrived *)
Theorem C101_copy : forall bl ck d0 a ps1 w1 d1 b ps2 w2 d2 cs n c0,
  works (Writer ck []) d0 a ps1 w1 d1 -> works w1 d1 b ps2 w2 d2 -> flowing cs -> in_bytes cs = firstn n (flat_map wire (ps1 ++ ps2)) ->
  arrived n (ps1 ++ ps2) = length a -> alike d0 c0 ->
  exists s c, takes bl (stream_new cs ck) (map inl a) s /\ stream_next bl s = (Ok (Some (inr (EIo UnexpectedEof))), Stream [] (sm_parser s)) /\
    apply_events (Copy [] c0) (map snd a) = Some c /\ alike d1 (cp_data c).
Proof.
  intros bl ck d0 a ps1 w1 d1 b ps2 w2 d2 cs n c0 W1 W2 F B AR A. pose proof (works_written _ _ _ _ _ _ (works_app _ _ _ _ _ _ W1 _ _ _ _ W2)) as L.
  destruct (C66_events_partial bl ck _ _ _ cs n L F B) as (s & T & E). rewrite AR, firstn_app, firstn_all, Nat.sub_diag, app_nil_r in T.
  destruct (works_copied _ _ _ _ _ _ W1 (Copy [] c0)) as (c & C & _ & AL); [intros id; reflexivity|exact A|]. exists s, c. auto.
Qed.
Print Assumptions C101_copy.
(* the whole log *)
Corollary C101_whole : forall bl ck d0 es ps w1 d1 cs c0, works (Writer ck []) d0 es ps w1 d1 -> flowing cs -> in_bytes cs = flat_map wire ps -> alike d0 c0 ->
  exists s c, takes bl (stream_new cs ck) (map inl es) s /\ apply_events (Copy [] c0) (map snd es) = Some c /\ alike d1 (cp_data c).
Proof.
  intros bl ck d0 es ps w1 d1 cs c0 W F B A. destruct (C101_copy bl ck d0 es ps w1 d1 [] [] w1 d1 cs (length (flat_map wire ps)) c0 W (wk_nil _ _) F) as (s & c & T & _ & X); auto.
  - now rewrite app_nil_r, firstn_all.
  - rewrite app_nil_r, (works_length _ _ _ _ _ _ W). clear. induction ps as [|p ps IH]; [reflexivity|]. cbn [flat_map]. rewrite app_length. cbn [arrived].
    destruct (Nat.ltb_spec (length (wire p) + length (flat_map wire ps)) (length (wire p))); [lia|]. cbn [length]. f_equal.
    replace (length (wire p) + length (flat_map wire ps) - length (wire p))%nat with (length (flat_map wire ps)) by lia. exact IH.
  - eauto.
Qed.
Print Assumptions C101_whole.
(* Over any number of connections in GTID mode that break anywhere, failed attempts in between: a program that applies a transaction once it
   has all of it always has the server's tables as they were after some transaction; the saved set leaves exactly the later ones *)
Lemma alters_applied f d es d2 : alters f d es d2 -> forall c, (forall id, name_of c id = f id) -> alike d (cp_data c) -> exists c', apply_events c es = Some c' /\ alike d2 (cp_data c').
Proof.
  induction 1 as [f d|f d t es d2 A IH|f d e id n rows es d2 R N C A IH|f d e es d2 R T A IH]; intros c K AL; cbn [apply_events].
  - eauto.
  - apply IH; [|exact AL]. intros id. unfold name_of. cbn [cp_names find fst]. unfold with_name. destruct (tb_id t =? id); [reflexivity|]. apply K.
  - destruct (change_applied e _ _ C (cp_data c n) (AL n)) as (rows' & AR & PR).
    assert (E : apply_event c e = Some (Copy (cp_names c) (with_rows (cp_data c) n rows'))).
    { pose proof (K id) as NN. rewrite N in NN. destruct e; try discriminate R; cbn [row_table] in R; injection R as R; unfold apply_event; cbn [row_table]; rewrite R, NN, AR; reflexivity. }
    rewrite E. apply IH; [exact K|]. intros m. cbn [cp_data]. unfold with_rows. destruct (same_name m n); [exact PR|apply AL].
  - assert (E : apply_event c e = Some c) by (destruct e; try discriminate R; try reflexivity; now destruct (T t)). rewrite E. apply IH; assumption.
Qed.
Lemma executes_applied ts1 : forall d ts2 d2, executes d (ts1 ++ ts2) d2 -> forall c, alike d c -> exists d1 c1, executes d ts1 d1 /\ executes d1 ts2 d2 /\ apply_txns c ts1 = Some c1 /\ alike d1 c1.
Proof.
  induction ts1 as [|t ts1 IH]; intros d ts2 d2 X c A; cbn [app] in X.
  - exists d, c. split; [constructor|]. auto.
  - inversion X as [|? ? d1 ? ? AL X1]; subst. destruct (alters_applied _ _ _ _ AL (Copy [] c)) as (c' & E & A'); [reflexivity|exact A|].
    destruct (IH d1 ts2 d2 X1 (cp_data c') A') as (d3 & c3 & E1 & E2 & E3 & E4). exists d3, c3. split; [econstructor; eassumption|]. split; [exact E2|]. split; [|exact E4].
    cbn [apply_txns]. unfold apply_txn. rewrite E. exact E3.
Qed.
Theorem C101_reconnects : forall bl ev st log c xs c2 s todo d dend copy0, (forall s, Permutation s (e_order ev s)) -> s_server_id st < 4294967296 -> log_fine log ->
  saved c s -> contacts bl ev st log c xs c2 -> missing (set_has s) log todo -> executes d (map txn_changes todo) dend -> alike d copy0 ->
  exists s2 rest d1 copy1, o_set (c_opts c2) = Some s2 /\ missing (set_has s2) log rest /\ executes d (map txn_changes (delivered xs)) d1 /\ executes d1 (map txn_changes rest) dend /\
    apply_txns copy0 (map txn_changes (delivered xs)) = Some copy1 /\ alike d1 copy1.
Proof.
  intros bl ev st log c xs c2 s todo d dend copy0 OR ID LF K C MI X A. destruct (C74_delivery bl ev st log c xs c2 s todo OR ID LF K C MI) as (s2 & rest & E & -> & M2).
  rewrite map_app in X. destruct (executes_applied _ _ _ _ X _ A) as (d1 & c1 & X1 & X2 & X3 & X4). exists s2, rest, d1, c1. auto 10.
Qed.
Print Assumptions C101_reconnects.
(* the same with a MariaDB server and groups that consist of row events (for others C82 says what the saved position leaves out) *)
Definition group_changes (g : group) : list event := map snd (group_events g).
Theorem C101_reconnects_mariadb : forall bl ev st log c xs c2 l d dend copy0, s_server_id st < 4294967296 -> mlog_fine log ->
  Forall (fun x => Forall mitem_ok (ms_items x)) xs -> msaved c l -> mcontacts bl ev st log c xs c2 -> executes d (map group_changes (to_send l log)) dend -> alike d copy0 ->
  exists l2 d1 copy1, msaved c2 l2 /\ executes d (map group_changes (mdelivered xs)) d1 /\ executes d1 (map group_changes (to_send l2 log)) dend /\
    apply_txns copy0 (map group_changes (mdelivered xs)) = Some copy1 /\ alike d1 copy1.
Proof.
  intros bl ev st log c xs c2 l d dend copy0 ID LF R K C X A. destruct (C82_delivery_partial bl ev st log c xs c2 l ID LF R K C) as (l2 & rest & K2 & E & E2).
  rewrite E, map_app in X. destruct (executes_applied _ _ _ _ X _ A) as (d1 & c1 & X1 & X2 & X3 & X4). exists l2, d1, c1. rewrite E2. auto 10.
Qed.
Print Assumptions C101_reconnects_mariadb.

(* by file and position *)
Definition names_after (f : naming) (es : list event) : naming := fold_left (fun f e => match e with EvTableMap t => with_name f t | _ => f end) es f.
Definition mapped (es : list event) (id : N) : Prop := exists t, In (EvTableMap t) es /\ tb_id t = id.
Definition map_event (e : event) : Prop := exists t, e = EvTableMap t.
Lemma names_same f ms id : Forall map_event ms -> ~ mapped ms id -> names_after f ms id = f id.
Proof.
  intros M. revert f. induction M as [|e ms [t ->] M IH]; intros f H; [reflexivity|]. unfold names_after. cbn [fold_left]. fold (names_after (with_name f t) ms). rewrite IH.
  - unfold with_name. destruct (N.eqb_spec (tb_id t) id); [|reflexivity]. destruct H. exists t. split; [now left|assumption].
  - intros (t' & I & E). apply H. exists t'. split; [now right|exact E].
Qed.
Lemma alters_maps f d ms es d2 : Forall map_event ms -> alters f d (ms ++ es) d2 <-> alters (names_after f ms) d es d2.
Proof.
  intros M. revert f. induction M as [|e ms [t ->] M IH]; intros f; [reflexivity|]. unfold names_after. cbn [app fold_left]. fold (names_after (with_name f t) ms). rewrite <- IH.
  split; [|apply al_map]. intros X. inversion X as [|? ? ? ? ? X1|? ? ? ? ? ? ? ? R N C X1|? ? ? ? ? R T X1]; subst; [exact X1|discriminate R|now destruct (T t)].
Qed.
Lemma alters_split a : forall f d b d2, alters f d (a ++ b) d2 -> exists d1, alters f d a d1 /\ alters (names_after f a) d1 b d2.
Proof.
  induction a as [|e a IH]; intros f d b d2 X; [exists d; split; [constructor|exact X]|]. cbn [app] in X.
  inversion X as [|? ? ? ? ? X1|? ? ? ? ? ? ? ? R N C X1|? ? ? ? ? R T X1]; subst; destruct (IH _ _ _ _ X1) as (d1 & Y1 & Y2); exists d1.
  - split; [now apply al_map|exact Y2].
  - split; [eapply al_rows; eassumption|]. destruct e; try discriminate R; exact Y2.
  - split; [now apply al_other|]. destruct e; try exact Y2. now destruct (T t).
Qed.
(* the program's names are the server's, apart from the ids that the maps [ms] ahead are about *)
Lemma part_applied a : forall f d b dend c ms rest, alters f d (a ++ b) dend -> a ++ b = ms ++ rest -> Forall map_event ms -> (forall id, ~ mapped ms id -> name_of c id = f id) -> alike d (cp_data c) ->
  exists c' d1 ms' rest', apply_events c a = Some c' /\ alters f d a d1 /\ alters (names_after f a) d1 b dend /\ alike d1 (cp_data c') /\ b = ms' ++ rest' /\ Forall map_event ms' /\
    forall id, ~ mapped ms' id -> name_of c' id = names_after f a id.
Proof.
  induction a as [|e a IH]; intros f d b dend c ms rest X E M K A.
  - exists c, d, ms, rest. cbn [app apply_events] in *. repeat (split; [first [reflexivity|assumption|constructor]|]). exact K.
  - cbn [app apply_events] in *. destruct M as [|m ms [t ->] M].
    + inversion X as [|? ? t ? ? X1|? ? ? id n rows ? ? R N C X1|? ? ? ? ? R T X1]; subst.
      * destruct (IH (with_name f t) d b dend (Copy ((tb_id t, (tb_database t, tb_table t)) :: cp_names c) (cp_data c)) [] (a ++ b) X1 eq_refl ltac:(constructor)) as (c' & d1 & ms' & rest' & Y1 & Y2 & Y3); [|exact A|].
        { intros id _. unfold name_of. cbn [cp_names find fst]. unfold with_name. destruct (tb_id t =? id); [reflexivity|]. apply K. now intros (t' & [] & _). }
        exists c', d1, ms', rest'. split; [exact Y1|]. split; [now apply al_map|exact Y3].
      * destruct (change_applied e _ _ C (cp_data c n) (A n)) as (rows' & AR & PR).
        assert (EE : apply_event c e = Some (Copy (cp_names c) (with_rows (cp_data c) n rows'))).
        { assert (NN : name_of c id = Some n) by (rewrite K; [exact N|now intros (t' & [] & _)]).
          destruct e; try discriminate R; cbn [row_table] in R; injection R as R; unfold apply_event; cbn [row_table]; rewrite R, NN, AR; reflexivity. }
        destruct (IH f (with_rows d n rows) b dend (Copy (cp_names c) (with_rows (cp_data c) n rows')) [] (a ++ b) X1 eq_refl ltac:(constructor)) as (c' & d1 & ms' & rest' & Y1 & Y2 & Y3 & Y4 & Y5 & Y6 & Y7).
        { intros i _. apply K. now intros (t' & [] & _). }
        { intros m. cbn [cp_data]. unfold with_rows. destruct (same_name m n); [exact PR|apply A]. }
        exists c', d1, ms', rest'. rewrite EE. split; [exact Y1|]. split; [eapply al_rows; eassumption|]. destruct e; try discriminate R; repeat (split; [assumption|]); exact Y7.
      * assert (EE : apply_event c e = Some c) by (destruct e; try discriminate R; try reflexivity; now destruct (T t)). rewrite EE.
        destruct (IH f d b dend c [] (a ++ b) X1 eq_refl ltac:(constructor)) as (c' & d1 & ms' & rest' & Y1 & Y2 & Y3 & Y4 & Y5 & Y6 & Y7); [exact K|exact A|].
        exists c', d1, ms', rest'. split; [exact Y1|]. split; [now apply al_other|].
        assert (NA : names_after f (e :: a) = names_after f a) by (destruct e; try reflexivity; now destruct (T t)). rewrite NA. repeat (split; [assumption|]); exact Y7.
    + cbn [app] in E. injection E as -> E. inversion X as [|? ? ? ? ? X1|? ? ? ? ? ? ? ? R N C X1|? ? ? ? ? R T X1]; subst; [|discriminate R|now destruct (T t)].
      destruct (IH (with_name f t) d b dend (Copy ((tb_id t, (tb_database t, tb_table t)) :: cp_names c) (cp_data c)) ms rest X1 E M) as (c' & d1 & ms' & rest' & Y1 & Y2 & Y3); [|exact A|].
      { intros id H. unfold name_of. cbn [cp_names find fst]. unfold with_name. destruct (N.eqb_spec (tb_id t) id) as [Z|Z]; [reflexivity|]. apply K. intros (t' & [I|I] & J); [congruence|].
        apply H. exists t'. auto. }
      exists c', d1, ms', rest'. split; [exact Y1|]. split; [now apply al_map|exact Y3].
Qed.
(* Over any number of connections by file and position: a program that applies every event from the log as it comes (keeping the names of the
   table maps from one connection to the next) has the server's tables as they were at the saved place; some table maps it gets twice *)
Theorem C101_reconnects_position : forall bl ev st fs c ds c2 f p d dend copy0, s_server_id st < 4294967296 -> log_ok fs -> Forall (fun f => named (bf_name f)) fs ->
  stands_at fs c f p -> pcontacts bl ev st fs c ds c2 -> alters no_names d (map lo_event (log_from f p (locate_files fs))) dend -> alike d copy0 ->
  exists f2 p2 d1 names copy1, stands_at fs c2 f2 p2 /\ apply_events (Copy [] copy0) (map lo_event (concat ds)) = Some copy1 /\ alike d1 (cp_data copy1) /\
    alters names d1 (map lo_event (log_from f2 p2 (locate_files fs))) dend.
Proof.
  intros bl ev st fs c ds c2 f p d dend copy0 ID LO NA A C X AL.
  assert (G : forall g cp ms rest, alters g d (map lo_event (log_from f p (locate_files fs))) dend -> map lo_event (log_from f p (locate_files fs)) = ms ++ rest -> Forall map_event ms ->
    (forall id, ~ mapped ms id -> name_of cp id = g id) -> alike d (cp_data cp) ->
    exists f2 p2 d1 names copy1, stands_at fs c2 f2 p2 /\ apply_events cp (map lo_event (concat ds)) = Some copy1 /\ alike d1 (cp_data copy1) /\
      alters names d1 (map lo_event (log_from f2 p2 (locate_files fs))) dend).
  2: { apply (G no_names (Copy [] copy0) [] _ X eq_refl); [constructor|reflexivity|exact AL]. }
  clear X AL copy0. revert f p d A.
  induction C as [c|c cs e w' ds c2 E C IH|c cs ck w' ps q pos fl id nm f p xs its pk w2 n evs s c' ds c2 E SE D S AN MK L F B T CO C IH]; intros f0 p0 d A g cp ms rest X EM M K AL.
  - exists f0, p0, d, g, cp. auto.
  - apply (IH f0 p0 d) with (g := g) (ms := ms) (rest := rest); auto. assert (O : c_opts (w_client w') = c_opts c).
    { apply (C62_not_asked_again bl ev st (World c cs []) (Err e) w'); [|exact E]. cbn [w_client]. destruct A as (_ & _ & [_ NE] & [[A _]|[A _]]); [right; now rewrite A|now left]. }
    unfold stands_at in *. now rewrite O.
  - destruct (place_exact bl ev st fs c f0 p0 cs ck w' ps q pos fl id nm f p xs its pk w2 n evs s c' ID LO NA A E SE D S AN MK L F B T CO) as (-> & -> & f1 & p1 & pre & maps & A1 & X1 & X2 & X3).
    set (k := logged _) in *. set (lg := log_from f0 p0 (locate_files fs)) in *. assert (SP : map lo_event lg = map lo_event (firstn k lg) ++ map lo_event (skipn k lg)) by now rewrite <- map_app, firstn_skipn.
    rewrite SP in X, EM. destruct (part_applied _ _ _ _ _ cp ms rest X EM M K AL) as (c1 & d1 & ms' & rest' & Y1 & Y2 & Y3 & Y4 & Y5 & Y6 & Y7).
    assert (MM : Forall map_event (map lo_event maps)).
    { clear - X2. induction X2 as [|m maps H _ IH]; cbn [map]; constructor; [|exact IH]. destruct (lo_event m); try discriminate H. eexists. reflexivity. }
    rewrite X1, map_app in Y3, Y7. assert (NN : names_after g (map lo_event pre ++ map lo_event maps) = names_after (names_after g (map lo_event pre)) (map lo_event maps)) by apply fold_left_app.
    rewrite NN in Y3, Y7. apply alters_maps in Y3; [|exact MM]. rewrite <- map_app, <- X3 in Y3.
    destruct (IH f1 p1 d1 A1 (names_after g (map lo_event pre)) c1 (map lo_event maps ++ ms') rest' Y3) as (f2 & p2 & d2 & names & c3 & Z1 & Z2 & Z3).
    + rewrite X3, map_app, Y5. now rewrite app_assoc.
    + apply Forall_app. auto.
    + intros i H. rewrite Y7; [apply names_same; [exact MM|]|]; intros (t & I & J); apply H; exists t; (split; [apply in_or_app; auto|exact J]).
    + exact Y4.
    + exists f2, p2, d2, names, c3. split; [exact Z1|]. split; [|exact Z3]. cbn [concat]. rewrite map_app.
      assert (AA : forall a b c0 c9, apply_events c0 a = Some c9 -> apply_events c0 (a ++ b) = apply_events c9 b).
      { induction a as [|x a IHa]; intros b c0 c9 H; cbn [app apply_events] in *; [congruence|]. destruct (apply_event c0 x); [|discriminate]. now apply IHa. }
      rewrite (AA _ _ _ _ Y1). exact Z2.
Qed.
Print Assumptions C101_reconnects_position.

(* from a binlog file, cut anywhere *)
Lemma alters_app a : forall f d b d2, alters f d (a ++ b) d2 -> exists d1, alters f d a d1.
Proof.
  induction a as [|e a IH]; intros f d b d2 X; [exists d; constructor|]. cbn [app] in X.
  inversion X as [|? ? ? ? ? X1|? ? ? ? ? ? ? ? R N C X1|? ? ? ? ? R T X1]; subst; destruct (IH _ _ _ _ X1) as (d1 & Y); exists d1; [apply al_map|eapply al_rows|apply al_other]; eassumption.
Qed.
Theorem C101_file : forall bl es fs w k d dend copy0, file_written (Writer CkNone []) es fs w -> alters no_names d (map snd es) dend -> alike d copy0 ->
  let a := firstn (length (complete k fs)) es in
  exists rd d1 c, reader_new (firstn (4 + k) (file_of fs)) = Ok rd /\ yields bl rd (map inl a) /\ alters no_names d (map snd a) d1 /\
    apply_events (Copy [] copy0) (map snd a) = Some c /\ alike d1 (cp_data c).
Proof.
  intros bl es fs w k d dend copy0 F X A a. destruct (C78_file_partial bl es fs w k F) as (rd & N & Y). rewrite <- (firstn_skipn (length (complete k fs)) es), map_app in X.
  destruct (alters_app _ _ _ _ _ X) as (d1 & X1). destruct (alters_applied _ _ _ _ X1 (Copy [] copy0)) as (c & E & L); [reflexivity|exact A|]. exists rd, d1, c. auto.
Qed.
Print Assumptions C101_file.
(* from any number of files one after the other, each read by a reader of its own, the last one cut anywhere *)
Theorem C101_files : forall bl files es fs w k d dend copy0,
  Forall (fun f => exists w', file_written (Writer CkNone []) (fst f) (snd f) w') files -> file_written (Writer CkNone []) es fs w ->
  alters no_names d (map snd (flat_map fst files ++ es)) dend -> alike d copy0 ->
  let a := firstn (length (complete k fs)) es in
  exists rds rd d1 c, Forall2 (fun f r => reader_new (file_of (snd f)) = Ok r /\ yields bl r (map inl (fst f))) files rds /\
    reader_new (firstn (4 + k) (file_of fs)) = Ok rd /\ yields bl rd (map inl a) /\ alters no_names d (map snd (flat_map fst files ++ a)) d1 /\
    apply_events (Copy [] copy0) (map snd (flat_map fst files ++ a)) = Some c /\ alike d1 (cp_data c).
Proof.
  intros bl files es fs w k d dend copy0 FS F X A a. destruct (C78_file_partial bl es fs w k F) as (rd & N & Y).
  rewrite <- (firstn_skipn (length (complete k fs)) es), app_assoc, map_app in X. fold a in X.
  destruct (alters_app _ _ _ _ _ X) as (d1 & X1). destruct (alters_applied _ _ _ _ X1 (Copy [] copy0)) as (c & E & L); [reflexivity|exact A|].
  assert (R : exists rds, Forall2 (fun f r => reader_new (file_of (snd f)) = Ok r /\ yields bl r (map inl (fst f))) files rds).
  { clear - FS. induction FS as [|[es' fs'] files (w' & W) FS (rds & IH)]; [exists []; constructor|].
    destruct (C78_whole_file_partial bl es' fs' w' W) as (r & R). exists (r :: rds). now constructor. }
  destruct R as (rds & R). exists rds, rd, d1, c. auto 10.
Qed.
Print Assumptions C101_files.
(* an INT and a VARCHAR column; rows are inserted under one table id, the table gets another one, one row is updated with images of single
   columns, one of two equal rows is deleted *)
Definition pad6 : list bool := [false; false; false; false; false; false].
Definition tab101 (id : N) : table := Table id 1 (tx "shop") (tx "kinds") [Column 3 0 false; Column 15 40 true] pad6 [].
Definition f101 (n : N) (t : text) : list field := [Val (VInt n) (le_enc 4 n); Val (VString t) (le_enc 1 (N.of_nat (length (utf8_encode t))) ++ utf8_encode t)].
Definition i101 : rows := Rows 2 1 [] [true; true] pad6 [(f101 1 (tx "a"), pad6); (f101 2 (tx "b"), pad6); (f101 2 (tx "b"), pad6)].
Definition u101 : RowSpec.updates := RowSpec.Updates 2 1 [] [true; false] pad6 [false; true] pad6
  [([Val (VInt 1) (le_enc 4 1); Absent], false :: pad6, ([Absent; Null], false :: pad6))].
Definition d101 : rows := Rows 2 1 [] [true; true] pad6 [(f101 2 (tx "b"), pad6)].
Definition hd101 (ty : N) : header := Header 1700000000 ty 3 60 500 0.
Definition es101 : list hev := [(hd101 19, EvTableMap (table_map_of (tab101 7))); (hd101 30, EvWrite (rows_event_of (tab101 7) i101)); (hd101 16, EvXid 5);
  (hd101 19, EvTableMap (table_map_of (tab101 9))); (hd101 31, EvUpdate (update_event_of (tab101 9) u101)); (hd101 32, EvDelete (rows_event_of (tab101 9) d101))].
Definition bodies101 : list (list byte) := [table_bytes (tab101 7); rows_bytes (tab101 7) i101; le_enc 8 5; table_bytes (tab101 9); updates_bytes (tab101 9) u101; rows_bytes (tab101 9) d101].
Definition pk101 : list packet := map (fun x => (n2b 0 :: header_bytes (fst (fst x)) ++ snd x, 1)) (combine es101 bodies101).
Definition kinds : tname := (tx "shop", tx "kinds").
Definition r101 (n : N) (t : option text) : row := [Some (VInt n); option_map VString t].
Lemma tab101_ok id : id < 100 -> table_ok (tab101 id).
Proof.
  intros H. unfold table_ok, tab101. cbn [t_id t_db t_name t_cols t_pad t_fields].
  split; [lia|]; split; [split; [repeat constructor|reflexivity]|]; split; [split; [repeat constructor|reflexivity]|]; split; [|split; [cbn [length]; lia|split; [reflexivity|constructor]]].
  repeat (apply Forall_cons; [split; [unfold known_types; cbn [In c_type]; tauto|reflexivity]|]). apply Forall_nil.
Qed.
Lemma f101_ok n t : n < 4294967296 -> valid_text t -> N.of_nat (length (utf8_encode t)) < 256 -> RowSpec.written (t_cols (tab101 0)) [true; true] (f101 n t, pad6).
Proof.
  intros H V L. split; [|reflexivity]. cbn [fst f101 t_cols tab101]. apply im_val; [apply cc_plain; [discriminate|now apply cell_long]|]. apply im_val; [|constructor].
  apply cc_plain; [discriminate|]. apply (cell_string 15 40); [cbn; tauto|exact V|exact L].
Qed.
Lemma i101_event : row_event (tab101 7) 30 (EvWrite (rows_event_of (tab101 7) i101)) (rows_bytes (tab101 7) i101).
Proof.
  apply rw_write2; [|reflexivity]. split; [now apply tab101_ok|]. unfold i101. cbn [r_flags r_extra r_present r_pad r_images]. do 4 (split; [reflexivity|]).
  repeat (apply Forall_cons; [apply f101_ok; [reflexivity|repeat constructor|reflexivity]|]). apply Forall_nil.
Qed.
Lemma u101_event : row_event (tab101 9) 31 (EvUpdate (update_event_of (tab101 9) u101)) (updates_bytes (tab101 9) u101).
Proof.
  apply rw_update2; [|reflexivity]. split; [now apply tab101_ok|]. unfold u101. cbn [u_flags u_extra u_before u_bpad u_after u_apad u_images]. do 6 (split; [reflexivity|]).
  apply Forall_cons; [|apply Forall_nil]. cbn [fst snd]. split; (split; [|reflexivity]); cbn [fst t_cols tab101].
  - apply im_val; [apply cc_plain; [discriminate|now apply cell_long]|]. apply im_absent, im_nil.
  - apply im_absent, im_null, im_nil.
Qed.
Lemma d101_event : row_event (tab101 9) 32 (EvDelete (rows_event_of (tab101 9) d101)) (rows_bytes (tab101 9) d101).
Proof.
  apply rw_delete2; [|reflexivity]. split; [now apply tab101_ok|]. unfold d101. cbn [r_flags r_extra r_present r_pad r_images]. do 4 (split; [reflexivity|]).
  repeat (apply Forall_cons; [apply f101_ok; [reflexivity|repeat constructor|reflexivity]|]). apply Forall_nil.
Qed.
Definition before101 : database := fun _ => [].
Definition after101 : database := with_rows (with_rows (with_rows before101 kinds [r101 1 (Some (tx "a")); r101 2 (Some (tx "b")); r101 2 (Some (tx "b"))])
  kinds [r101 1 None; r101 2 (Some (tx "b")); r101 2 (Some (tx "b"))]) kinds [r101 1 None; r101 2 (Some (tx "b"))].
Lemma works101 : works (Writer CkNone []) before101 es101 pk101 (Writer CkNone [tab101 9; tab101 7]) after101.
Proof.
  assert (HO : forall ty, In ty [16; 19; 30; 31; 32] -> header_ok (hd101 ty)) by (intros ty I; cbn in I; repeat (destruct I as [<-|I]; [repeat split; vm_compute; reflexivity|]); destruct I).
  unfold es101, pk101, bodies101. cbn [combine map fst snd].
  apply (wk_other _ _ _ _ _ (Writer CkNone [tab101 7])); [apply HO; cbn; tauto| |split; vm_compute; reflexivity|reflexivity|].
  { rewrite <- (app_nil_r (table_bytes (tab101 7))). apply (wr_table (Writer CkNone [])); [reflexivity|now apply tab101_ok|reflexivity]. }
  apply (wk_rows _ _ _ _ _ (Writer CkNone [tab101 7]) _ 7 (tab101 7) [r101 1 (Some (tx "a")); r101 2 (Some (tx "b")); r101 2 (Some (tx "b"))]); [apply HO; cbn; tauto| |split; vm_compute; reflexivity|reflexivity|reflexivity| |].
  { rewrite <- (app_nil_r (rows_bytes (tab101 7) i101)). apply (wr_rows _ _ (tab101 7)); [exact i101_event|cbn; tauto|reflexivity|reflexivity]. }
  { exact (ch_insert (rows_event_of (tab101 7) i101) [] (Forall_cons true eq_refl (Forall_cons true eq_refl (Forall_nil _)))). }
  apply (wk_other _ _ _ _ _ (Writer CkNone [tab101 7])); [apply HO; cbn; tauto| |split; vm_compute; reflexivity|reflexivity|].
  { rewrite <- (app_nil_r (le_enc 8 5)). apply wr_service; [|reflexivity]. now apply sv_xid. }
  apply (wk_other _ _ _ _ _ (Writer CkNone [tab101 9; tab101 7])); [apply HO; cbn; tauto| |split; vm_compute; reflexivity|reflexivity|].
  { rewrite <- (app_nil_r (table_bytes (tab101 9))). apply (wr_table (Writer CkNone [tab101 7])); [reflexivity|now apply tab101_ok|reflexivity]. }
  apply (wk_rows _ _ _ _ _ (Writer CkNone [tab101 9; tab101 7]) _ 9 (tab101 9) [r101 1 None; r101 2 (Some (tx "b")); r101 2 (Some (tx "b"))]); [apply HO; cbn; tauto| |split; vm_compute; reflexivity|reflexivity|reflexivity| |].
  { rewrite <- (app_nil_r (updates_bytes (tab101 9) u101)). apply (wr_rows _ _ (tab101 9)); [exact u101_event|cbn; tauto|reflexivity|reflexivity]. }
  { apply ch_update. apply (up_row _ _ _ _ _ [] (r101 1 (Some (tx "a"))) (r101 1 None) [r101 2 (Some (tx "b")); r101 2 (Some (tx "b"))]); [| | |apply up_nil].
    - split; [split; [reflexivity|split; [discriminate|exact I]]|]. intros x [<-|[<-|[]]] [E _]; specialize (E eq_refl); discriminate E.
    - split; [discriminate|]. split; [reflexivity|exact I].
    - split; [reflexivity|]. split; [discriminate|exact I]. }
  apply (wk_rows _ _ _ _ _ (Writer CkNone [tab101 9; tab101 7]) _ 9 (tab101 9) [r101 1 None; r101 2 (Some (tx "b"))]); [apply HO; cbn; tauto| |split; vm_compute; reflexivity|reflexivity|reflexivity| |].
  { rewrite <- (app_nil_r (rows_bytes (tab101 9) d101)). apply (wr_rows _ _ (tab101 9)); [exact d101_event|cbn; tauto|reflexivity|reflexivity]. }
  { apply ch_delete. apply (de_row _ _ _ [r101 1 None] (r101 2 (Some (tx "b"))) [r101 2 (Some (tx "b"))]); [|apply de_nil].
    split; [split; [reflexivity|split; [reflexivity|exact I]]|]. intros x [<-|[<-|[]]] [E _]; [specialize (E eq_refl); discriminate E|reflexivity]. }
  apply wk_nil.
Qed.
Example C101_example : exists c, apply_events (Copy [] before101) (map snd es101) = Some c /\ cp_data c kinds = [r101 1 None; r101 2 (Some (tx "b"))] /\ cp_data c kinds = after101 kinds.
Proof. eexists. split; [vm_compute; reflexivity|]. split; vm_compute; reflexivity. Qed.
(* a program that forgets table maps, or one that got no update image, would not get there: the copy differs from the table before *)
Example C101_example_differs : ~ alike after101 (with_rows before101 kinds [r101 1 (Some (tx "a")); r101 2 (Some (tx "b"))]).
Proof. intros H. specialize (H kinds). vm_compute in H. apply (Permutation_in (r101 1 None)) in H; [|left; reflexivity]. destruct H as [H|[H|[]]]; discriminate H. Qed.
(* transactions that execute so *)
Definition txn101 (n : N) (id : N) (e : event) : txn := TBlock hd0 (mg n) [] (hd 10, sql "BEGIN") [(hd 20, EvTableMap (table_map_of (tab101 id))); (hd 30, e)] (hd 40, EvXid n).
Example C101_example_txns : exists d1 d2 c, executes before101 (map txn_changes [txn101 5 7 (EvWrite (rows_event_of (tab101 7) i101)); txn101 6 9 (EvDelete (rows_event_of (tab101 9) d101))]) d2 /\
  executes before101 (map txn_changes [txn101 5 7 (EvWrite (rows_event_of (tab101 7) i101))]) d1 /\ ~ alike d1 d2 /\
  apply_txns before101 (map txn_changes [txn101 5 7 (EvWrite (rows_event_of (tab101 7) i101)); txn101 6 9 (EvDelete (rows_event_of (tab101 9) d101))]) = Some c /\ c kinds = [r101 1 (Some (tx "a")); r101 2 (Some (tx "b"))].
Proof.
  set (t3 := [r101 1 (Some (tx "a")); r101 2 (Some (tx "b")); r101 2 (Some (tx "b"))]).
  assert (X1 : alters no_names before101 (map snd (txn_events (txn101 5 7 (EvWrite (rows_event_of (tab101 7) i101))))) (with_rows before101 kinds t3)).
  { cbn [txn_events txn101 map snd app]. apply al_other; [reflexivity|discriminate|]. apply al_other; [reflexivity|discriminate|]. apply al_map.
    eapply al_rows; [reflexivity|reflexivity| |apply al_other; [reflexivity|discriminate|apply al_nil]].
    exact (ch_insert (rows_event_of (tab101 7) i101) [] (Forall_cons true eq_refl (Forall_cons true eq_refl (Forall_nil _)))). }
  assert (X2 : alters no_names (with_rows before101 kinds t3) (map snd (txn_events (txn101 6 9 (EvDelete (rows_event_of (tab101 9) d101))))) (with_rows (with_rows before101 kinds t3) kinds [r101 1 (Some (tx "a")); r101 2 (Some (tx "b"))])).
  { cbn [txn_events txn101 map snd app]. apply al_other; [reflexivity|discriminate|]. apply al_other; [reflexivity|discriminate|]. apply al_map.
    eapply al_rows; [reflexivity|reflexivity| |apply al_other; [reflexivity|discriminate|apply al_nil]].
    apply ch_delete. apply (de_row _ _ _ [r101 1 (Some (tx "a"))] (r101 2 (Some (tx "b"))) [r101 2 (Some (tx "b"))]); [|apply de_nil].
    split; [split; [reflexivity|split; [reflexivity|exact I]]|]. intros x [<-|[<-|[]]] [E _]; [specialize (E eq_refl); discriminate E|reflexivity]. }
  eexists _, _, _. split; [econstructor; [exact X1|econstructor; [exact X2|constructor]]|]. split; [econstructor; [exact X1|constructor]|]. split.
  - intros H. specialize (H kinds). apply Permutation_length in H. vm_compute in H. discriminate H.
  - split; vm_compute; reflexivity.
Qed.
(* a file of a description and three rows inserted; the events alter the tables *)
Definition hl101 (ty : N) (bs : list byte) : header := Header 1700000000 ty 3 (19 + N.of_nat (length bs)) 0 0.
Definition es101f : list hev := [(hl101 19 (table_bytes (tab101 7)), EvTableMap (table_map_of (tab101 7))); (hl101 30 (rows_bytes (tab101 7) i101), EvWrite (rows_event_of (tab101 7) i101))].
Example C101_example_file : exists fs w d, file_written (Writer CkNone []) es101f fs w /\ alters no_names before101 (map snd es101f) d /\ d kinds = [r101 1 (Some (tx "a")); r101 2 (Some (tx "b")); r101 2 (Some (tx "b"))] /\
  length (complete 80 fs) = 1%nat.
Proof.
  exists [(hl101 19 (table_bytes (tab101 7)), table_bytes (tab101 7)); (hl101 30 (rows_bytes (tab101 7) i101), rows_bytes (tab101 7) i101)], (Writer CkNone [tab101 7]).
  exists (with_rows before101 kinds [r101 1 (Some (tx "a")); r101 2 (Some (tx "b")); r101 2 (Some (tx "b"))]). split; [|split; [|split; vm_compute; reflexivity]].
  - apply (fw_event _ _ _ _ (Writer CkNone [tab101 7])); [repeat split; vm_compute; reflexivity|reflexivity| |apply (fw_event _ _ _ _ (Writer CkNone [tab101 7])); [repeat split; vm_compute; reflexivity|reflexivity| |constructor]].
    + rewrite <- (app_nil_r (table_bytes (tab101 7))) at 2. apply (wr_table (Writer CkNone [])); [reflexivity|now apply tab101_ok|reflexivity].
    + rewrite <- (app_nil_r (rows_bytes (tab101 7) i101)) at 2. apply (wr_rows _ _ (tab101 7)); [exact i101_event|cbn; tauto|reflexivity|reflexivity].
  - cbn [map snd es101f]. apply al_map. eapply al_rows; [reflexivity|reflexivity| |apply al_nil].
    exact (ch_insert (rows_event_of (tab101 7) i101) [] (Forall_cons true eq_refl (Forall_cons true eq_refl (Forall_nil _)))).
Qed.
(* the rows are inserted in one file and again in the next *)
Example C101_example_files : exists fs w d, file_written (Writer CkNone []) es101f fs w /\ alters no_names before101 (map snd (flat_map fst [(es101f, fs)] ++ es101f)) d /\ length (d kinds) = 6%nat.
Proof.
  destruct C101_example_file as (fs & w & _ & F & _). set (three := [r101 1 (Some (tx "a")); r101 2 (Some (tx "b")); r101 2 (Some (tx "b"))]).
  exists fs, w, (with_rows (with_rows before101 kinds three) kinds (three ++ three)). split; [exact F|]. split; [|vm_compute; reflexivity].
  cbn [map snd fst flat_map app es101f].
  apply al_map. eapply al_rows; [reflexivity|reflexivity|exact (ch_insert (rows_event_of (tab101 7) i101) [] (Forall_cons true eq_refl (Forall_cons true eq_refl (Forall_nil _))))|].
  apply al_map. eapply al_rows; [reflexivity|reflexivity| |apply al_nil].
  exact (ch_insert (rows_event_of (tab101 7) i101) three (Forall_cons true eq_refl (Forall_cons true eq_refl (Forall_nil _)))).
Qed.
(* the two connections of C84_example: the first breaks behind a table map, which comes again; one row of two is deleted *)
Definition orders : tname := (tx "shop", tx "orders").
Definition row84 : row := List.hd [] (re_rows (rows_event_of ex_table ex_rows)).
Definition other84 : row := [Some (VInt 1); None; None; None].
Example C101_example_position : exists d dend c, pcontacts Release env0 st0 fs84 c84_0 [firstn 2 (locate_files fs84); skipn 1 (locate_files fs84)] c84_2 /\
  alters no_names d (map lo_event (log_from (tx "bin.1") 4 (locate_files fs84))) dend /\ d orders = [other84; row84] /\ dend orders = [other84] /\
  apply_events (Copy [] d) (map lo_event (concat [firstn 2 (locate_files fs84); skipn 1 (locate_files fs84)])) = Some c /\ cp_data c orders = [other84] /\
  length (concat [firstn 2 (locate_files fs84); skipn 1 (locate_files fs84)]) = 5%nat.
Proof.
  exists (with_rows before101 orders [other84; row84]), (with_rows (with_rows before101 orders [other84; row84]) orders [other84]). eexists.
  split; [exact (proj1 C84_example)|]. split; [|split; [reflexivity|split; [reflexivity|split; [vm_compute; reflexivity|split; vm_compute; reflexivity]]]].
  change (map lo_event _) with [EvXid 8; EvTableMap (table_map_of ex_table); EvDelete (rows_event_of ex_table ex_rows); EvXid 9].
  apply al_other; [reflexivity|discriminate|]. apply al_map. eapply (al_rows _ _ _ _ orders); [reflexivity|reflexivity| |apply al_other; [reflexivity|discriminate|apply al_nil]].
  apply ch_delete. apply (de_row _ _ _ [other84] row84 []); [|apply de_nil]. split; [vm_compute; tauto|]. intros x [<-|[]] [E _]. specialize (E eq_refl). vm_compute in E. discriminate E.
Qed.
