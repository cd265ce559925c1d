(* Rows events decode to the rows the server wrote. *)
From Verif Require Import Base.Tac Base.Bytes Base.Text Base.Res Base.Str Base.Parse Base.Loop Model.Codec Model.Values Model.Cells
  Model.TableMap Model.Rows Model.Events Spec.CodecSpec Spec.EventSpec Spec.CellSpec Spec.TableSpec Spec.RowSpec
  Proofs.CodecProofs Proofs.EventProofs Proofs.CellProofs Proofs.TableProofs.
Local Open Scope N_scope.

(* ---- the real type of STRING columns ---- *)
Lemma actual_types :
  (forall len, len < 1024 -> actual_string_type 254 (char_metadata len) = (254, len)) /\
  (forall p, p < 256 -> actual_string_type 254 (enum_metadata p) = (247, p)) /\
  (forall p, p < 256 -> actual_string_type 254 (set_metadata p) = (248, p)).
Proof.
  assert (F : forall (f : N -> bool) k, forallb f (map N.of_nat (seq 0 k)) = true -> forall n, n < N.of_nat k -> f n = true).
  { intros f k H n Hn. rewrite forallb_forall in H. apply H. apply in_map_iff. exists (N.to_nat n). split; [lia|]. apply in_seq. lia. }
  assert (P : forall a b c d, ((fst a =? b) && (snd a =? c)) = d -> d = true -> a = (b, c)).
  { intros [x y] b c d H ->. cbn [fst snd] in H. apply andb_true_iff in H. destruct H as [H1 H2]. f_equal; lia. }
  split; [|split]; intros n Hn; (eapply P; [reflexivity|]).
  - apply (F (fun n => (fst (actual_string_type 254 (char_metadata n)) =? 254) && (snd (actual_string_type 254 (char_metadata n)) =? n)) 1024%nat); [vm_compute; reflexivity|exact Hn].
  - apply (F (fun n => (fst (actual_string_type 254 (enum_metadata n)) =? 247) && (snd (actual_string_type 254 (enum_metadata n)) =? n)) 256%nat); [vm_compute; reflexivity|exact Hn].
  - apply (F (fun n => (fst (actual_string_type 254 (set_metadata n)) =? 248) && (snd (actual_string_type 254 (set_metadata n)) =? n)) 256%nat); [vm_compute; reflexivity|exact Hn].
Qed.
Lemma actual_plain ty len : len < 256 -> actual_string_type ty len = (ty, len).
Proof. intros H. unfold actual_string_type. destruct (N.ltb_spec len 256); [reflexivity|lia]. Qed.

Lemma cell_coltype ty m v bs : cell ty m v bs -> ty <> 254 -> exists t, coltype_from_code ty = Ok t /\ t <> CtString.
Proof.
  intros H Hn. destruct H; try (eexists; split; [reflexivity|discriminate]).
  - cbn [In] in H. destruct H as [<-|[<-|[<-|[]]]]; [congruence| |]; (eexists; split; [reflexivity|discriminate]).
  - cbn [In] in H. destruct H as [<-|[<-|[<-|[<-|[<-|[<-|[]]]]]]]; (eexists; split; [reflexivity|discriminate]).
Qed.
(* one present, non-null column *)
Definition column_parser (bl : build) (ty m : N) : parser value :=
  ct <- lift (coltype_from_code ty) ;;
  let '(ty2, m2) := match ct with CtString => actual_string_type ty m | _ => (ty, m) end in
  parse_cell bl ty2 m2.
Lemma runs_column bl ty m v bs : column_cell ty m v bs -> runs (column_parser bl ty m) bs v.
Proof.
  destruct actual_types as (A1 & A2 & A3). intros H. unfold column_parser. destruct H as [ty m v bs Hn H|len v bs Hl H|len v bs Hl H|p v bs Hp H|p v bs Hp H].
  - destruct (cell_coltype _ _ _ _ H Hn) as (t & E & Ht). eapply runs_bind_nil; [apply runs_lift; exact E|]. cbv beta.
    destruct t; try (now apply runs_cell). congruence.
  - eapply runs_bind_nil; [apply runs_lift; reflexivity|]. cbv beta iota. rewrite A1 by exact Hl. now apply runs_cell.
  - eapply runs_bind_nil; [apply runs_lift; reflexivity|]. cbv beta iota. rewrite actual_plain by exact Hl. now apply runs_cell.
  - eapply runs_bind_nil; [apply runs_lift; reflexivity|]. cbv beta iota. rewrite A2 by exact Hp. now apply runs_cell.
  - eapply runs_bind_nil; [apply runs_lift; reflexivity|]. cbv beta iota. rewrite A3 by exact Hp. now apply runs_cell.
Qed.

(* ---- one row ---- *)
Lemma runs_columns bl cs ps fs : image_ok cs ps fs ->
  runs (parse_columns bl (map c_type cs) (map c_meta cs) ps (null_bits fs))
       (flat_map (fun f => match f with Val _ bs => bs | _ => [] end) fs) (image_row fs).
Proof.
  induction 1 as [|c cs ps fs H IH|c cs ps fs H IH|c cs ps v bs fs Hc H IH]; cbn [map parse_columns flat_map null_bits image_row app tl].
  - apply runs_ret.
  - eapply runs_bind_last; [exact IH|apply runs_ret].
  - eapply runs_bind_last; [exact IH|apply runs_ret].
  - pose proof (runs_column bl _ _ _ _ Hc) as R. unfold column_parser in R. intros pre post.
    specialize (R pre (flat_map (fun f => match f with Val _ bs => bs | _ => [] end) fs ++ post)). rewrite <- app_assoc. unfold pbind in *.
    destruct (lift (coltype_from_code (c_type c)) _ (length pre)) as [[ct p1]|e| |]; try discriminate R.
    destruct (match ct with CtString => actual_string_type (c_type c) (c_meta c) | _ => (c_type c, c_meta c) end) as [ty2 m2].
    rewrite R. specialize (IH (pre ++ bs) post). rewrite <- app_assoc, app_length in IH. unfold image_row, null_bits in IH. rewrite IH.
    unfold ret. rewrite app_length. f_equal. f_equal. lia.
Qed.
Lemma image_present cs ps fs : image_ok cs ps fs -> bits_number ps = N.of_nat (length (null_bits fs)).
Proof.
  unfold bits_number. induction 1 as [|c cs ps fs H IH|c cs ps fs H IH|c cs ps v bs fs Hc H IH]; cbn [filter null_bits flat_map app length]; try exact IH; try reflexivity.
  - unfold null_bits in IH. lia.
  - unfold null_bits in IH. lia.
Qed.
Lemma image_len cs ps fs : image_ok cs ps fs -> (length (null_bits fs) <= length cs)%nat.
Proof. induction 1; cbn [null_bits flat_map app length] in *; unfold null_bits in *; lia. Qed.
Lemma runs_row bl t ps i : N.of_nat (length (t_cols t)) <= 4611686018427387903 -> written (t_cols t) ps i ->
  runs (parse_row bl (table_map_of t) ps (bits_number ps)) (written_bytes i) (image_row (fst i)).
Proof.
  destruct i as [fs pad]. intros Hl [H1 H2]. cbn [fst snd] in *. unfold parse_row, written_bytes, image_bytes. cbn [fst snd].
  eapply runs_bind.
  - rewrite (image_present _ _ _ H1). apply runs_bitmap; [exact H2|reflexivity|]. pose proof (image_len _ _ _ H1). unfold isize_max. lia.
  - now apply runs_columns.
Qed.
Lemma written_nonempty cs ps i : written cs ps i -> In true ps -> written_bytes i <> [].
Proof.
  destruct i as [fs pad]. intros [H1 H2] Hin. cbn [fst snd] in *. unfold written_bytes, image_bytes. cbn [fst snd]. apply app_nonempty.
  assert (L : (0 < length (null_bits fs))%nat).
  { clear H2. revert Hin. induction H1; cbn [null_bits flat_map app length In] in *; try tauto; try lia.
    intros [C|C]; [discriminate|]. now apply IHimage_ok. }
  intros E. apply (f_equal (@length byte)) in E. rewrite bitmap_length in E. cbn [length] in E. unfold bitmap_len in E. lia.
Qed.

(* ---- the event ---- *)
Lemma runs_extra version extra : u16 (2 + N.of_nat (length extra)) ->
  runs (if version =? 2 then x <- read_u16 ;; seek_cur (Z.of_N x - 2) else ret tt) (extra_bytes version extra) tt.
Proof.
  intros H. unfold u16 in H. unfold extra_bytes. destruct (version =? 2); [|apply runs_ret].
  eapply runs_bind; [apply runs_u16; exact H|]. cbv beta.
  replace (Z.of_N (2 + N.of_nat (length extra)) - 2)%Z with (Z.of_nat (length extra)) by lia. now apply runs_seek.
Qed.
Lemma runs_head t version flags extra : table_ok t -> u16 flags -> u16 (2 + N.of_nat (length extra)) ->
  runs (parse_head version) (head_bytes t version flags extra) (t_id t, flags, N.of_nat (length (t_cols t))).
Proof.
  intros H1 H2 H3. destruct H1 as (I & _ & _ & _ & L & _). unfold u16 in H2. unfold parse_head, head_bytes. rd. rd.
  eapply runs_bind; [now apply runs_extra|]. eapply runs_bind_last; [apply runs_short; lia|]. apply runs_ret.
Qed.

Lemma runs_rows_event bl ts t r : rows_ok t r -> tables_get (t_id t) ts = Some (table_map_of t) ->
  In true (r_present r) \/ r_images r = [] ->
  runs_end (parse_rows_event bl ts (r_version r)) (rows_bytes t r) (rows_event_of t r).
Proof.
  intros (H1 & H2 & H3 & H4 & H5 & H6) Hg Hp. unfold parse_rows_event, rows_bytes, rows_event_of.
  pose proof H1 as (_ & _ & _ & _ & L & _).
  eapply runs_end_bind; [now apply runs_head|]. cbv beta iota.
  eapply runs_end_bind; [apply runs_bitmap; [exact H4|now rewrite H5|unfold isize_max; lia]|]. cbv beta.
  eapply runs_end_bind_last; [|apply runs_runs_end, runs_ret]. unfold parse_row_list. rewrite Hg.
  apply (pwhile_runs _ written_bytes (fun i => image_row (fst i))).
  destruct Hp as [Hp|Hp]; [|rewrite Hp; constructor].
  eapply Forall_impl; [|exact H6]. intros i Hi. split; [now apply (written_nonempty (t_cols t) (r_present r))|now apply runs_row].
Qed.
Lemma runs_update_event bl ts t u : updates_ok t u -> tables_get (t_id t) ts = Some (table_map_of t) ->
  (In true (u_before u) \/ In true (u_after u)) \/ u_images u = [] ->
  runs_end (parse_update_event bl ts (u_version u)) (updates_bytes t u) (update_event_of t u).
Proof.
  intros (H1 & H2 & H3 & H4 & H4' & H5 & H5' & H6) Hg Hp. unfold parse_update_event, updates_bytes, update_event_of.
  pose proof H1 as (_ & _ & _ & _ & L & _).
  eapply runs_end_bind; [now apply runs_head|]. cbv beta iota.
  eapply runs_end_bind; [apply runs_bitmap; [exact H4|now rewrite H5|unfold isize_max; lia]|]. cbv beta.
  eapply runs_end_bind; [apply runs_bitmap; [exact H4'|now rewrite H5'|unfold isize_max; lia]|]. cbv beta.
  eapply runs_end_bind_last; [|apply runs_runs_end, runs_ret]. unfold parse_update_row_list. rewrite Hg.
  apply (pwhile_runs _ (fun p => written_bytes (fst p) ++ written_bytes (snd p)) (fun p => (image_row (fst (fst p)), image_row (fst (snd p))))).
  destruct Hp as [Hp|Hp]; [|rewrite Hp; constructor].
  eapply Forall_impl; [|exact H6]. intros [b a] [Hb Ha]. cbn [fst snd] in *. split.
  - destruct Hp as [Hp|Hp]; intros E; apply app_eq_nil in E; destruct E as [E1 E2];
      [now apply (written_nonempty _ _ _ Hb Hp) in E1|now apply (written_nonempty _ _ _ Ha Hp) in E2].
  - eapply runs_bind; [now apply runs_row|]. eapply runs_bind_last; [now apply runs_row|]. apply runs_ret.
Qed.
Lemma row_event_starts bl ts h t ty e bs : row_event t ty e bs -> some_column e -> h_type h = ty ->
  tables_get (t_id t) ts = Some (table_map_of t) -> starts (event_body bl ts h) bs e.
Proof.
  intros H Hs Hh Hg. unfold event_body. rewrite Hh.
  destruct H as [r Hr Hv|u Hr Hv|r Hr Hv|r Hr Hv|u Hr Hv|r Hr Hv]; cbn [N.eqb Pos.eqb some_column] in *; apply starts_pmap, runs_end_starts;
    first [pose proof (runs_rows_event bl ts t r Hr Hg (or_introl Hs)) as R | pose proof (runs_update_event bl ts t u Hr Hg (or_introl Hs)) as R];
    rewrite Hv in R; exact R.
Qed.

(* ---- any payload: shape of the decoded rows ---- *)
Lemma parse_columns_shape bl types : forall metas ps nulls buf pos r pos',
  parse_columns bl types metas ps nulls buf pos = Ok (r, pos') ->
  length r = length types /\ (length types <= length ps)%nat /\ forall i, nth_error ps i = Some false -> (i < length types)%nat -> nth_error r i = Some None.
Proof.
  induction types as [|ty types IH]; intros metas ps nulls buf pos r pos' H; cbn [parse_columns] in H.
  - inv H. split; [reflexivity|]. split; [cbn [length]; lia|]. intros i _ Hi. cbn [length] in Hi. lia.
  - destruct ps as [|[|] ps]; [discriminate| |].
    + assert (G : exists v m n p1 r1, parse_columns bl types m ps n buf p1 = Ok (r1, pos') /\ r = v :: r1).
      { destruct nulls as [|[|] nulls]; [discriminate| |].
        - unfold pbind in H. destruct (parse_columns bl types (tl metas) ps nulls buf pos) as [[cells p1]|e| |] eqn:E; try discriminate. inv H. eauto 8.
        - destruct metas as [|m metas]; [discriminate|]. unfold pbind at 1 in H.
          destruct (lift (coltype_from_code ty) buf pos) as [[ct p0]|e| |]; try discriminate.
          destruct (match ct with CtString => actual_string_type ty m | _ => (ty, m) end) as [ty2 m2]. unfold pbind in H.
          destruct (parse_cell bl ty2 m2 buf p0) as [[v p1]|e| |]; try discriminate.
          destruct (parse_columns bl types metas ps nulls buf p1) as [[cells p2]|e| |] eqn:E; try discriminate. inv H. eauto 8. }
      destruct G as (v & m & n & p1 & r1 & E & ->). apply IH in E. destruct E as (E1 & E2 & E3). cbn [length].
      split; [now rewrite E1|]. split; [lia|]. intros [|i] Hf Hi; [discriminate|]. cbn [nth_error] in *. apply E3; [exact Hf|lia].
    + unfold pbind in H. destruct (parse_columns bl types (tl metas) ps nulls buf pos) as [[cells p1]|e| |] eqn:E; try discriminate. inv H.
      apply IH in E. destruct E as (E1 & E2 & E3). cbn [length].
      split; [now rewrite E1|]. split; [lia|]. intros [|i] Hf Hi; [reflexivity|]. cbn [nth_error] in *. apply E3; [exact Hf|lia].
Qed.
Definition row_shape (t : table_map) (ps : list bool) (r : row) : Prop :=
  length r = length (tb_types t) /\ forall i, nth_error ps i = Some false -> (i < length (tb_types t))%nat -> nth_error r i = Some None.
Lemma parse_row_shape bl t ps n buf pos r pos' : parse_row bl t ps n buf pos = Ok (r, pos') -> row_shape t ps r.
Proof.
  unfold parse_row, pbind. destruct (read_bitmap_le n buf pos) as [[nulls p1]|e| |]; try discriminate. intros H.
  apply parse_columns_shape in H. destruct H as (H1 & _ & H3). split; assumption.
Qed.
Lemma pwhile_all {A} (P : A -> Prop) (p : parser A) : (forall buf pos a pos', p buf pos = Ok (a, pos') -> P a) ->
  forall buf pos l pos', pwhile p buf pos = Ok (l, pos') -> Forall P l.
Proof.
  intros Hp buf pos l pos'. unfold pwhile. generalize (S (length buf)) as fuel. intros fuel. revert pos l pos'.
  induction fuel as [|f IH]; intros pos l pos'; cbn [pwhile_aux]; destruct (pos <? length buf)%nat.
  - discriminate.
  - intros H. inv H. constructor.
  - unfold pbind. destruct (p buf pos) as [[x p1]|e| |] eqn:E1; try discriminate.
    destruct (pwhile_aux f p buf p1) as [[xs p2]|e| |] eqn:E2; try discriminate. intros H. inv H.
    constructor; [now apply Hp in E1|now apply IH in E2].
  - intros H. inv H. constructor.
Qed.

(* ---- the table mapping ---- *)
Lemma tables_get_put id id' t ts : tables_get id (tables_put id' t ts) = if id' =? id then Some t else tables_get id ts.
Proof.
  induction ts as [|[k u] ts IH]; cbn [tables_put tables_get].
  - reflexivity.
  - destruct (N.eqb_spec k id') as [->|Hk]; cbn [tables_get].
    + destruct (N.eqb_spec id' id); reflexivity.
    + destruct (N.eqb_spec k id) as [->|]; [|exact IH]. destruct (N.eqb_spec id' id); [congruence|reflexivity].
Qed.
Lemma parse_event_state bl st h bs e st' : parse_event bl st h bs = Ok (e, st') -> st' = after_event st e.
Proof.
  unfold parse_event, rbind. destruct (event_payload _ _); try discriminate.
  destruct (event_body _ _ _ _ _) as [[x p]|er| |]; try discriminate. intros H. now inv H.
Qed.
Lemma history_tables bl st l es st' : history bl st l es st' ->
  forall id, tables_get id (ps_tables st') = latest id es (tables_get id (ps_tables st)).
Proof.
  unfold latest. induction 1 as [st|st h bs e st' l es st'' H Hh IH|st h bs er l es st'' H Hh IH]; intros id; [reflexivity| |apply IH].
  cbn [fold_left]. rewrite IH. f_equal. apply parse_event_state in H. subst st'. destruct e; try reflexivity.
  cbn [after_event ps_tables]. apply tables_get_put.
Qed.

(* rows without any column take no bytes *)
Lemma image_empty cs ps fs : image_ok cs ps fs -> ~ In true ps -> null_bits fs = [] /\ flat_map (fun f => match f with Val _ bs => bs | _ => [] end) fs = [].
Proof.
  induction 1 as [|c cs ps fs H IH|c cs ps fs H IH|c cs ps v bs fs Hc H IH]; intros N; cbn [In] in N; [auto| |tauto|tauto].
  destruct IH as [A B]; [tauto|]. unfold null_bits in *. cbn [flat_map app]. auto.
Qed.
Lemma written_empty cs ps i : written cs ps i -> ~ In true ps -> written_bytes i = [].
Proof.
  intros [H1 H2] N. destruct (image_empty cs ps (fst i) H1 N) as [A B]. unfold written_bytes, image_bytes. rewrite A, B. reflexivity.
Qed.
Lemma rowless_rows t r : rows_ok t r -> ~ In true (r_present r) ->
  exists r', rows_ok t r' /\ r_version r' = r_version r /\ rows_bytes t r' = rows_bytes t r /\ r_images r' = [] /\
    rows_event_of t r' = RowsEvent (re_table (rows_event_of t r)) (re_flags (rows_event_of t r)) (re_columns (rows_event_of t r)) (re_present (rows_event_of t r)) [].
Proof.
  intros (H1 & H2 & H3 & H4 & H5 & H6) N. exists (Rows (r_version r) (r_flags r) (r_extra r) (r_present r) (r_pad r) []).
  split; [repeat (split; [assumption|]); constructor|]. split; [reflexivity|]. split; [|split; reflexivity].
  unfold rows_bytes. cbn [r_version r_flags r_extra r_present r_pad r_images flat_map].
  assert (E : flat_map written_bytes (r_images r) = []); [|now rewrite E].
  induction H6 as [|i l Hi H IH]; [reflexivity|]. cbn [flat_map]. rewrite (written_empty _ _ _ Hi N). exact IH.
Qed.
Lemma rowless_updates t u : updates_ok t u -> ~ In true (u_before u) -> ~ In true (u_after u) ->
  exists u', updates_ok t u' /\ u_version u' = u_version u /\ updates_bytes t u' = updates_bytes t u /\ u_images u' = [] /\
    update_event_of t u' = UpdateEvent (ue_table (update_event_of t u)) (ue_flags (update_event_of t u)) (ue_columns (update_event_of t u))
      (ue_before (update_event_of t u)) (ue_after (update_event_of t u)) [].
Proof.
  intros (H1 & H2 & H3 & H4 & H4' & H5 & H5' & H6) N N'.
  exists (Updates (u_version u) (u_flags u) (u_extra u) (u_before u) (u_bpad u) (u_after u) (u_apad u) []).
  split; [repeat (split; [assumption|]); constructor|]. split; [reflexivity|]. split; [|split; reflexivity].
  unfold updates_bytes. cbn [u_version u_flags u_extra u_before u_bpad u_after u_apad u_images flat_map].
  assert (E : flat_map (fun p : image * image => written_bytes (fst p) ++ written_bytes (snd p)) (u_images u) = []); [|now rewrite E].
  induction H6 as [|i l [Hi Hi'] H IH]; [reflexivity|]. cbn [flat_map]. rewrite (written_empty _ _ _ Hi N), (written_empty _ _ _ Hi' N'). exact IH.
Qed.
Lemma row_event_empty bl ts h t ty e bs : row_event t ty e bs -> ~ some_column e -> h_type h = ty ->
  tables_get (t_id t) ts = Some (table_map_of t) -> starts (event_body bl ts h) bs (rowless e).
Proof.
  intros H Hs Hh Hg. unfold event_body. rewrite Hh.
  destruct H as [r Hr Hv|u Hr Hv|r Hr Hv|r Hr Hv|u Hr Hv|r Hr Hv]; cbn [N.eqb Pos.eqb some_column rowless] in *;
    first [destruct (rowless_rows t r Hr Hs) as (r' & A & B & C & D & E)
          |destruct (rowless_updates t u Hr (fun X => Hs (or_introl X)) (fun X => Hs (or_intror X))) as (r' & A & B & C & D & E)];
    apply starts_pmap, runs_end_starts; rewrite <- C, <- E, <- Hv, <- B;
    first [apply runs_rows_event|apply runs_update_event]; auto.
Qed.
