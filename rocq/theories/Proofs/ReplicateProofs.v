(* Setting up replication *)
From Coq Require Import Sorting.Permutation Strings.String.
From Verif Require Import Base.Tac Base.Bytes Base.Text Base.Res Base.Str Base.Parse Model.Codec Model.Gtid Model.GtidMaria Model.Events Model.Client
  Model.Commands Model.Responses Model.Channel Model.Session Spec.GtidSpec Spec.GtidMariaSpec Spec.CodecSpec Spec.CommandSpec Spec.ChannelSpec Spec.SessionSpec
  Proofs.GtidMariaProofs Proofs.CodecProofs Proofs.EventProofs Proofs.EventSafe Proofs.DecodeSafe Proofs.CommandProofs Proofs.ChannelProofs.
Local Open Scope N_scope.

(* ---- C63 ---- *)
Lemma quoted_plain t u : Forall (fun c => c <> 39 /\ c <> 92) t -> (forall d, hd_error u = Some d -> d <> 39) -> quoted (t ++ 39 :: u) = Some (t, u).
Proof.
  intros H U. induction H as [|c t [H1 H2] Ht IH]; cbn [app quoted].
  - rewrite N.eqb_refl. destruct u as [|d u]; [reflexivity|]. cbn in U. destruct (N.eqb_spec d 39) as [E|E]; [now destruct (U d)|reflexivity].
  - destruct (N.eqb_spec c 39); [contradiction|]. destruct (N.eqb_spec c 92); [contradiction|]. now rewrite IH.
Qed.
Lemma join_In sep l c : In c (join sep l) -> In c sep \/ exists x, In x l /\ In c x.
Proof.
  induction l as [|x l IH]; cbn [join]; [contradiction|]. destruct l as [|y l].
  - intros H. right. exists x. split; [now left|exact H].
  - rewrite !in_app_iff. intros [H|[H|H]]; [right; exists x; split; [now left|exact H]|now left|].
    destruct (IH H) as [K|(z & K1 & K2)]; [now left|right; exists z; split; [now right|exact K2]].
Qed.
Lemma gtid_list_chars l : Forall (fun c => 48 <= c <= 57 \/ c = 45 \/ c = 44) (gtid_list_text l).
Proof.
  apply Forall_forall. intros c H. apply join_In in H. destruct H as [[<-|[]]|(x & H1 & H2)]; [auto|].
  apply in_map_iff in H1. destruct H1 as (g & <- & _). apply mgtid_text_chars in H2. tauto.
Qed.

(* ---- C64 ---- *)
Lemma heartbeat_period_bounds hb : heartbeat_period hb <= hb < heartbeat_period hb + 1000000 /\ heartbeat_period hb mod 1000000 = 0.
Proof. unfold heartbeat_period. lia. Qed.

(* ---- reading what is pending ---- *)
Lemma a_read_ok w p ps t rest : pending (w_in w) (p :: ps) t rest ->
  exists cs, a_read w = (Ok p, World (w_client w) cs (w_log w ++ [got p])) /\ pending cs ps t rest.
Proof.
  intros (c & E & F & B & P). apply Forall_cons_iff in P. destruct P as [P1 P2]. cbn [flat_map] in B. rewrite <- app_assoc in B.
  destruct (read_packet_ok c p _ rest P1 F B) as (c' & R & F' & B'). unfold a_read. rewrite E, R. destruct p as [b s].
  exists (c' ++ rest). split; [reflexivity|]. exists c'. auto.
Qed.
Lemma abind_ok {A B} (m : act A) (f : A -> act B) w a w' : m w = (Ok a, w') -> abind m f w = f a w'.
Proof. intros H. unfold abind. now rewrite H. Qed.
Lemma abind_err {A B} (m : act A) (f : A -> act B) w e w' : m w = (Err e, w') -> abind m f w = (Err e, w').
Proof. intros H. unfold abind. now rewrite H. Qed.
Lemma alift_ok {A B} (f : A -> act B) a w : abind (alift (Ok a)) f w = f a w.
Proof. reflexivity. Qed.
Lemma a_write_ok p s w : N.of_nat (length p) < 16777216 ->
  a_write p s w = (Ok tt, World (w_client w) (w_in w) (w_log w ++ [Sent p s])).
Proof.
  intros H. unfold a_write. rewrite N.mod_small by (unfold u32max1; lia). destruct (N.leb_spec 16777216 (N.of_nat (length p))); [lia|reflexivity].
Qed.
Lemma check_pass p m : not_byte 0xFF p -> check_error_packet p m = Ok tt.
Proof.
  intros (x & d & -> & H). unfold check_error_packet, byte_at. cbn [nth_error rbind]. destruct (N.eqb_spec (b2n x) resp_error); [contradiction|reflexivity].
Qed.

(* ---- result sets ---- *)
Lemma pending_size cs ps t rest : pending cs ps t rest -> (length ps < in_size cs)%nat.
Proof.
  intros (c & -> & F & B & P). unfold in_size. fold (in_bytes (c ++ rest)). rewrite in_bytes_app, app_length, B, app_length.
  assert (length ps <= length (flat_map wire ps))%nat; [|lia]. clear. induction ps as [|p ps IH]; cbn [flat_map length]; [lia|].
  rewrite app_length. assert (4 <= length (wire p))%nat by (unfold wire; rewrite !app_length, le_enc_length; cbn [length]; lia). lia.
Qed.
Lemma skip_columns_ok cols : forall fuel w e ps t rest, Forall (fun p => not_byte 0xFE (fst p)) cols -> starts_byte 0xFE (fst e) -> (length cols < fuel)%nat ->
  pending (w_in w) (cols ++ e :: ps) t rest ->
  exists cs, skip_columns fuel w = (Ok tt, World (w_client w) cs (w_log w ++ map got (cols ++ [e]))) /\ pending cs ps t rest.
Proof.
  induction cols as [|p cols IH]; intros fuel w e ps t rest C E L P; (destruct fuel as [|fuel]; [cbn [length] in L; lia|]); cbn [skip_columns].
  - destruct (a_read_ok w _ _ _ _ P) as (cs & R & P'). exists cs. split; [|exact P']. rewrite (abind_ok _ _ _ _ _ R).
    destruct E as [d E]. rewrite E. rewrite byte_at_head by lia. rewrite alift_ok. reflexivity.
  - cbn [app length] in *. apply Forall_cons_iff in C. destruct C as [(x & d & C1 & C2) C]. destruct (a_read_ok w _ _ _ _ P) as (cs & R & P').
    rewrite (abind_ok _ _ _ _ _ R), C1. unfold byte_at. cbn [nth_error]. rewrite alift_ok. destruct (N.eqb_spec (b2n x) resp_eof); [contradiction|].
    destruct (IH fuel (World (w_client w) cs (w_log w ++ [got p])) e ps t rest C E ltac:(lia) P') as (cs' & R' & P'').
    exists cs'. split; [|exact P'']. rewrite R'. cbn [w_client w_log map]. now rewrite <- app_assoc.
Qed.
Definition plain (row : list text) : list (option text) := map Some row.
Lemma cell_runs c : valid_text c -> N.of_nat (length (utf8_encode c)) < 16777216 -> runs read_len_enc_str (cell_bytes (Some c)) c.
Proof.
  intros V L. unfold cell_bytes. apply runs_lenenc_str; [split; [exact V|lia]|]. unfold lenenc_short.
  destruct (N.ltb_spec (N.of_nat (length (utf8_encode c))) 251); [constructor; lia|].
  destruct (N.ltb_spec (N.of_nat (length (utf8_encode c))) 65536); [constructor; lia|].
  destruct (N.ltb_spec (N.of_nat (length (utf8_encode c))) 16777216); [constructor; lia|lia].
Qed.
Lemma row_bytes_plain row : row_bytes (plain row) = flat_map (fun c => cell_bytes (Some c)) row.
Proof. unfold row_bytes, plain. induction row as [|c row IH]; cbn [map flat_map]; [reflexivity|now rewrite IH]. Qed.
Lemma cell_in_row row c : In c row -> (length (cell_bytes (Some c)) <= length (row_bytes (plain row)))%nat.
Proof.
  rewrite row_bytes_plain. induction row as [|x row IH]; cbn [flat_map]; intros []; rewrite app_length; [subst; lia|]. specialize (IH H). lia.
Qed.
Lemma cell_nonempty c : cell_bytes (Some c) <> [].
Proof. unfold cell_bytes, lenenc_short. repeat (destruct (_ <? _) in |- *); discriminate. Qed.
Lemma row_parsed row : Forall valid_text row -> N.of_nat (length (row_bytes (plain row))) < 16777216 -> parse_row_packet (row_bytes (plain row)) = Ok row.
Proof.
  intros V L. unfold parse_row_packet. apply on_slice_end. rewrite row_bytes_plain. pose proof (pwhile_runs read_len_enc_str (fun c => cell_bytes (Some c)) (fun c => c) row) as X.
  rewrite map_id in X. apply X. apply Forall_forall. intros c Hc. split; [apply cell_nonempty|]. rewrite Forall_forall in V. apply cell_runs; [auto|].
  pose proof (cell_in_row row c Hc) as Q. unfold cell_bytes in Q. rewrite app_length in Q. lia.
Qed.
Lemma row_first row : row <> [] -> N.of_nat (length (row_bytes (plain row))) < 16777216 -> exists x d, row_bytes (plain row) = x :: d /\ b2n x <> 0xFE /\ b2n x <> 0xFF.
Proof.
  destruct row as [|c row]; [congruence|]. intros _ L. pose proof (cell_in_row (c :: row) c (or_introl eq_refl)) as Q.
  rewrite row_bytes_plain in *. cbn [flat_map] in *. unfold cell_bytes in Q at 1. rewrite app_length in Q.
  unfold cell_bytes at 1. unfold lenenc_short.
  destruct (N.ltb_spec (N.of_nat (length (utf8_encode c))) 251); [eexists; eexists; split; [reflexivity|]; rewrite b2n_n2b; lia|].
  destruct (N.ltb_spec (N.of_nat (length (utf8_encode c))) 65536); [eexists; eexists; split; [reflexivity|]; rewrite b2n_n2b; lia|].
  destruct (N.ltb_spec (N.of_nat (length (utf8_encode c))) 16777216); [eexists; eexists; split; [reflexivity|]; rewrite b2n_n2b; lia|lia].
Qed.
Lemma read_rows_ok rows : forall rps fuel acc w e ps t rest, map fst rps = map row_bytes (map plain rows) ->
  Forall (fun row => row <> [] /\ Forall valid_text row) rows -> starts_byte 0xFE (fst e) -> (length rps < fuel)%nat ->
  pending (w_in w) (rps ++ e :: ps) t rest ->
  exists cs, read_rows fuel acc w = (Ok (acc ++ rows), World (w_client w) cs (w_log w ++ map got (rps ++ [e]))) /\ pending cs ps t rest.
Proof.
  induction rows as [|row rows IH]; intros rps fuel acc w e ps t rest M V E L P; (destruct fuel as [|fuel]; [lia|]);
    cbn [read_rows]; (destruct rps as [|p rps]; try discriminate M).
  - destruct (a_read_ok w _ _ _ _ P) as (cs & R & P'). exists cs. split; [|exact P']. rewrite (abind_ok _ _ _ _ _ R).
    destruct E as [d E]. rewrite E. rewrite check_pass by (eexists; eexists; split; [reflexivity|]; rewrite b2n_n2b; lia). rewrite alift_ok.
    rewrite byte_at_head by lia. rewrite alift_ok. change (254 =? resp_eof) with true. cbv iota. unfold aret. rewrite app_nil_r. reflexivity.
  - cbn [app length map] in *. apply Forall_cons_iff in V. destruct V as [[V1 V2] V]. destruct (a_read_ok w _ _ _ _ P) as (cs & R & P').
    assert (M1 : fst p = row_bytes (plain row)) by congruence. assert (M2 : map fst rps = map row_bytes (map plain rows)) by congruence.
    rewrite (abind_ok _ _ _ _ _ R), M1.
    assert (S : N.of_nat (length (row_bytes (plain row))) < 16777216).
    { destruct P as (? & _ & _ & _ & P). apply Forall_cons_iff in P. destruct P as [[P _] _]. now rewrite <- M1. }
    destruct (row_first row V1 S) as (x & d & X1 & X2 & X3). rewrite check_pass by (exists x, d; auto). rewrite alift_ok.
    replace (byte_at (row_bytes (plain row)) 0) with (Ok (b2n x)) by (now rewrite X1). rewrite alift_ok. destruct (N.eqb_spec (b2n x) resp_eof); [contradiction|].
    rewrite row_parsed by assumption. rewrite alift_ok.
    destruct (IH rps fuel (acc ++ [row]) (World (w_client w) cs (w_log w ++ [got p])) e ps t rest M2 V E ltac:(lia) P') as (cs' & R' & P'').
    exists cs'. split; [|exact P'']. rewrite R'. cbn [w_client w_log map]. now rewrite <- !app_assoc.
Qed.

Lemma map_app_inv {A B} (f : A -> B) l : forall a b, map f l = a ++ b -> exists x y, l = x ++ y /\ map f x = a /\ map f y = b.
Proof.
  intros a. revert l. induction a as [|z a IH]; intros l b H; [exists [], l; auto|]. destruct l as [|c l]; [discriminate H|]. cbn [map app] in H.
  assert (H1 : f c = z) by congruence. assert (H2 : map f l = a ++ b) by congruence. destruct (IH _ _ H2) as (x & y & -> & Ex & Ey). exists (c :: x), y. cbn [map app].
  rewrite H1, Ex. auto.
Qed.
Lemma read_result_set_ok r rows w ps ps' t rest : result_ok r -> rs_rows r = map plain rows -> map fst ps = result_bodies r -> pending (w_in w) (ps ++ ps') t rest ->
  exists cs, read_result_set w = (Ok rows, World (w_client w) cs (w_log w ++ map got ps)) /\ pending cs ps' t rest.
Proof.
  intros (O1 & O2 & O3) RR M P. unfold result_bodies in M. destruct ps as [|p ps]; [discriminate M|]. cbn [app map] in M.
  assert (M0 : fst p = rs_count r) by congruence. assert (M' : map fst ps = rs_columns r ++ (n2b 254 :: rs_eof r) :: map row_bytes (rs_rows r) ++ [n2b 254 :: rs_end r]) by congruence.
  clear M. apply map_app_inv in M'. destruct M' as (cols & q & -> & Mc & Mq). destruct q as [|e q]; [discriminate Mq|]. cbn [map] in Mq.
  assert (Me : fst e = n2b 254 :: rs_eof r) by congruence. assert (Mr : map fst q = map row_bytes (rs_rows r) ++ [n2b 254 :: rs_end r]) by congruence. clear Mq.
  apply map_app_inv in Mr. destruct Mr as (rps & z & -> & Mr & Mz). destruct z as [|e2 [|? z]]; try discriminate Mz. cbn [map] in Mz.
  assert (Me2 : fst e2 = n2b 254 :: rs_end r) by congruence. clear Mz.
  assert (EQ : (p :: cols ++ e :: rps ++ [e2]) ++ ps' = p :: cols ++ e :: rps ++ e2 :: ps') by (cbn [app]; now rewrite <- !app_assoc; cbn [app]; rewrite <- app_assoc).
  rewrite EQ in P. destruct (a_read_ok w _ _ _ _ P) as (c1 & R1 & P1). unfold read_result_set. rewrite (abind_ok _ _ _ _ _ R1), M0.
  rewrite check_pass by exact O1. rewrite alift_ok.
  destruct (skip_columns_ok cols (in_size c1) (World (w_client w) c1 (w_log w ++ [got p])) e (rps ++ e2 :: ps') t rest) as (c2 & R2 & P2).
  - rewrite <- Mc in O2. clear -O2. induction cols; constructor; cbn [map] in O2; apply Forall_cons_iff in O2; [tauto|now apply IHcols].
  - now exists (rs_eof r).
  - pose proof (pending_size _ _ _ _ P1) as Q. rewrite app_length in Q. lia.
  - exact P1.
  - erewrite abind_ok by exact R2. cbn [w_in w_client w_log].
    destruct (read_rows_ok rows rps (in_size c2) [] (World (w_client w) c2 ((w_log w ++ [got p]) ++ map got (cols ++ [e]))) e2 ps' t rest) as (c3 & R3 & P3).
    + now rewrite Mr, RR.
    + rewrite RR in O3. clear -O3. induction rows as [|row rows IH]; constructor; cbn [map] in O3; apply Forall_cons_iff in O3; destruct O3 as [[O3 O4] O5].
      * split; [intros ->; now destruct O3|]. clear -O4. unfold plain in O4. induction row; constructor; cbn [map] in O4; apply Forall_cons_iff in O4; [tauto|now apply IHrow].
      * now apply IH.
    + now exists (rs_end r).
    + pose proof (pending_size _ _ _ _ P2) as Q. rewrite app_length in Q. lia.
    + exact P2.
    + exists c3. split; [|exact P3]. cbn [w_in w_client w_log app] in *. rewrite R3. f_equal. f_equal. rewrite <- !app_assoc. f_equal.
      change (p :: cols ++ e :: rps ++ [e2]) with ([p] ++ cols ++ [e] ++ rps ++ [e2]). rewrite !map_app. now rewrite <- !app_assoc.
Qed.
