(* Reading a result set with NULL cells (C65). *)
From Coq Require Import Strings.String.
From Verif Require Import Base.Tac Base.Bytes Base.Text Base.Res Base.Str Base.Parse Model.Codec Model.Client Model.Channel Model.Responses Model.Commands Model.Session
  Spec.CodecSpec Spec.ChannelSpec Spec.SessionSpec Proofs.EventProofs Proofs.ChannelProofs Proofs.ReplicateProofs.
Local Open Scope N_scope.

Lemma pwhile_aux_fails {A V} (p : parser A) (enc : V -> list byte) (f : V -> A) bs e : bs <> [] -> fails p bs e ->
  forall vals fuel pre post, Forall (fun v => enc v <> [] /\ runs p (enc v) (f v)) vals -> (length vals < fuel)%nat ->
  pwhile_aux fuel p (pre ++ flat_map enc vals ++ bs ++ post) (length pre) = Err e.
Proof.
  intros Hne Hf. induction vals as [|v vals IH]; intros fuel pre post HF Hl; (destruct fuel as [|fuel]; [cbn [length] in Hl; lia|]); cbn [pwhile_aux].
  - cbn [flat_map app]. destruct (Nat.ltb_spec (length pre) (length (pre ++ bs ++ post))) as [_|X].
    + unfold pbind at 1. now rewrite (Hf pre post).
    + rewrite !app_length in X. destruct bs; [congruence|cbn [length] in X; lia].
  - apply Forall_cons_iff in HF. destruct HF as [[V1 V2] HF]. cbn [flat_map length] in *. rewrite <- !app_assoc.
    destruct (Nat.ltb_spec (length pre) (length (pre ++ enc v ++ flat_map enc vals ++ bs ++ post))) as [_|X].
    2:{ rewrite !app_length in X. destruct (enc v); [congruence|cbn [length] in X; lia]. }
    unfold pbind at 1. rewrite V2. unfold pbind at 1.
    specialize (IH fuel (pre ++ enc v) post HF ltac:(lia)). rewrite <- app_assoc, app_length in IH. now rewrite IH.
Qed.
Lemma null_fails : fails read_len_enc_str [n2b 0xFB] (EString null_length).
Proof. intros pre post. unfold read_len_enc_str, read_len_enc_num, pbind at 1. unfold pbind at 1. rewrite (runs_u8_byte (n2b 0xFB) pre post). rewrite b2n_n2b by lia. reflexivity. Qed.
Lemma first_null (row : list (option text)) : In None row -> exists a b, row = plain a ++ None :: b.
Proof.
  induction row as [|[c|] row IH]; [intros []| |].
  - intros [X|X]; [discriminate|]. destruct (IH X) as (a & b & ->). exists (c :: a), b. reflexivity.
  - intros _. now exists [], row.
Qed.
Lemma row_bytes_app a b : row_bytes (a ++ b) = row_bytes a ++ row_bytes b.
Proof. unfold row_bytes. apply flat_map_app. Qed.
Lemma row_null row : In None row -> Forall (fun c => match c with Some t => valid_text t | None => True end) row -> N.of_nat (length (row_bytes row)) < 16777216 ->
  parse_row_packet (row_bytes row) = Err (EString null_length) /\ exists x d, row_bytes row = x :: d /\ b2n x <> 0xFE /\ b2n x <> 0xFF.
Proof.
  intros Hn V L. destruct (first_null row Hn) as (a & b & ->). rewrite row_bytes_app in *. change (row_bytes (None :: b)) with ([n2b 0xFB] ++ row_bytes b) in *.
  rewrite app_length in L. split.
  - unfold parse_row_packet, on_slice, pwhile. rewrite row_bytes_plain.
    apply Forall_app in V. destruct V as [V _].
    pose proof (pwhile_aux_fails read_len_enc_str (fun c => cell_bytes (Some c)) (fun c => c) [n2b 0xFB] (EString null_length) ltac:(discriminate) null_fails
      a (S (length (flat_map (fun c => cell_bytes (Some c)) a ++ [n2b 0xFB] ++ row_bytes b))) [] (row_bytes b)) as X. cbn [app] in X |- *. change (length (@nil byte)) with 0%nat in X. rewrite X; [reflexivity| |].
    + apply Forall_forall. intros c Hc. split; [apply cell_nonempty|]. unfold plain in V. rewrite Forall_forall in V. apply cell_runs.
      * apply (V (Some c)). now apply in_map.
      * pose proof (cell_in_row a c Hc) as Q. unfold cell_bytes in Q. rewrite app_length in Q. lia.
    + rewrite app_length. clear. induction a as [|c a IH]; cbn [flat_map length]; [lia|]. rewrite app_length.
      assert (0 < length (cell_bytes (Some c)))%nat by (pose proof (cell_nonempty c); destruct (cell_bytes (Some c)); [congruence|cbn [length]; lia]). cbn [length] in IH. lia.
  - destruct a as [|c a].
    + exists (n2b 0xFB), (row_bytes b). split; [reflexivity|]. rewrite b2n_n2b by lia. split; lia.
    + destruct (row_first (c :: a)) as (x & d & X1 & X2 & X3); [discriminate|lia|]. rewrite X1. cbn [app]. eauto.
Qed.
(* rows without NULL, then one with *)
Lemma read_rows_null rows : forall rps fuel acc w row p ps t rest, map fst rps = map row_bytes (map plain rows) ->
  Forall (fun row => row <> [] /\ Forall valid_text row) rows ->
  fst p = row_bytes row -> In None row -> Forall (fun c => match c with Some t => valid_text t | None => True end) row ->
  (length rps < fuel)%nat -> pending (w_in w) (rps ++ p :: ps) t rest ->
  exists cs, read_rows fuel acc w = (Err (EString null_length), World (w_client w) cs (w_log w ++ map got (rps ++ [p]))) /\ pending cs ps t rest.
Proof.
  induction rows as [|row1 rows IH]; intros rps fuel acc w row p ps t rest M V Ep Hn Hv L P; (destruct fuel as [|fuel]; [lia|]);
    cbn [read_rows]; (destruct rps as [|q rps]; try discriminate M).
  - destruct (a_read_ok w _ _ _ _ P) as (cs & R & P'). exists cs. split; [|exact P']. rewrite (abind_ok _ _ _ _ _ R), Ep.
    assert (S : N.of_nat (length (row_bytes row)) < 16777216).
    { destruct P as (? & _ & _ & _ & P). apply Forall_cons_iff in P. destruct P as [[P _] _]. now rewrite <- Ep. }
    destruct (row_null row Hn Hv S) as (E & x & d & X1 & X2 & X3). rewrite check_pass by (exists x, d; auto). rewrite alift_ok.
    replace (byte_at (row_bytes row) 0) with (Ok (b2n x)) by (now rewrite X1). rewrite alift_ok. destruct (N.eqb_spec (b2n x) resp_eof); [contradiction|].
    rewrite E. reflexivity.
  - cbn [app length map] in *. apply Forall_cons_iff in V. destruct V as [[V1 V2] V]. destruct (a_read_ok w _ _ _ _ P) as (cs & R & P').
    assert (M1 : fst q = row_bytes (plain row1)) by congruence. assert (M2 : map fst rps = map row_bytes (map plain rows)) by congruence.
    rewrite (abind_ok _ _ _ _ _ R), M1.
    assert (S : N.of_nat (length (row_bytes (plain row1))) < 16777216).
    { destruct P as (? & _ & _ & _ & P). apply Forall_cons_iff in P. destruct P as [[P _] _]. now rewrite <- M1. }
    destruct (row_first row1 V1 S) as (x & d & X1 & X2 & X3). rewrite check_pass by (exists x, d; auto). rewrite alift_ok.
    replace (byte_at (row_bytes (plain row1)) 0) with (Ok (b2n x)) by (now rewrite X1). rewrite alift_ok. destruct (N.eqb_spec (b2n x) resp_eof); [contradiction|].
    rewrite row_parsed by assumption. rewrite alift_ok.
    destruct (IH rps fuel (acc ++ [row1]) (World (w_client w) cs (w_log w ++ [got q])) row p ps t rest M2 V Ep Hn Hv ltac:(lia) P') as (cs' & R' & P'').
    exists cs'. split; [|exact P'']. rewrite R'. cbn [w_client w_log map]. now rewrite <- !app_assoc.
Qed.
Lemma read_result_set_null r rows row rows2 w ps ps' t rest : result_ok r -> rs_rows r = map plain rows ++ row :: rows2 -> In None row ->
  map fst ps = [rs_count r] ++ rs_columns r ++ [n2b 0xFE :: rs_eof r] ++ map row_bytes (map plain rows) ++ [row_bytes row] -> pending (w_in w) (ps ++ ps') t rest ->
  exists cs, read_result_set w = (Err (EString null_length), World (w_client w) cs (w_log w ++ map got ps)) /\ pending cs ps' t rest.
Proof.
  intros (O1 & O2 & O3) RR Hn M P. destruct ps as [|p ps]; [discriminate M|]. cbn [app map] in M.
  assert (M0 : fst p = rs_count r) by congruence.
  assert (M' : map fst ps = rs_columns r ++ (n2b 254 :: rs_eof r) :: map row_bytes (map plain rows) ++ [row_bytes row]) by congruence.
  clear M. apply map_app_inv in M'. destruct M' as (cols & q & -> & Mc & Mq). destruct q as [|e q]; [discriminate Mq|]. cbn [map] in Mq.
  assert (Me : fst e = n2b 254 :: rs_eof r) by congruence. assert (Mr : map fst q = map row_bytes (map plain rows) ++ [row_bytes row]) by congruence. clear Mq.
  apply map_app_inv in Mr. destruct Mr as (rps & z & -> & Mr & Mz). destruct z as [|e2 [|? z]]; try discriminate Mz. cbn [map] in Mz.
  assert (Me2 : fst e2 = row_bytes row) by congruence. clear Mz.
  assert (EQ : (p :: cols ++ e :: rps ++ [e2]) ++ ps' = p :: cols ++ e :: rps ++ e2 :: ps') by (cbn [app]; now rewrite <- !app_assoc; cbn [app]; rewrite <- app_assoc).
  rewrite EQ in P. destruct (a_read_ok w _ _ _ _ P) as (c1 & R1 & P1). unfold read_result_set. rewrite (abind_ok _ _ _ _ _ R1), M0.
  rewrite check_pass by exact O1. rewrite alift_ok.
  rewrite RR in O3. apply Forall_app in O3. destruct O3 as [O3 O4]. apply Forall_cons_iff in O4. destruct O4 as [[_ O4] _].
  destruct (skip_columns_ok cols (in_size c1) (World (w_client w) c1 (w_log w ++ [got p])) e (rps ++ e2 :: ps') t rest) as (c2 & R2 & P2).
  - rewrite <- Mc in O2. clear -O2. induction cols; constructor; cbn [map] in O2; apply Forall_cons_iff in O2; [tauto|now apply IHcols].
  - now exists (rs_eof r).
  - pose proof (pending_size _ _ _ _ P1) as Q. rewrite app_length in Q. lia.
  - exact P1.
  - erewrite abind_ok by exact R2. cbn [w_in w_client w_log].
    destruct (read_rows_null rows rps (in_size c2) [] (World (w_client w) c2 ((w_log w ++ [got p]) ++ map got (cols ++ [e]))) row e2 ps' t rest) as (c3 & R3 & P3); auto.
    + clear -O3. induction rows as [|row rows IH]; constructor; cbn [map] in O3; apply Forall_cons_iff in O3; destruct O3 as [[O3 O4] O5].
      * split; [intros ->; now destruct O3|]. clear -O4. unfold plain in O4. induction row; constructor; cbn [map] in O4; apply Forall_cons_iff in O4; [tauto|now apply IHrow].
      * now apply IH.
    + pose proof (pending_size _ _ _ _ P2) as Q. rewrite app_length in Q. lia.
    + exists c3. split; [|exact P3]. cbn [w_in w_client w_log app] in *. rewrite R3. f_equal. f_equal. rewrite <- !app_assoc. f_equal.
      change (p :: cols ++ e :: rps ++ [e2]) with ([p] ++ cols ++ [e] ++ rps ++ [e2]). rewrite !map_app. now rewrite <- !app_assoc.
Qed.
