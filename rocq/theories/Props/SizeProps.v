(* Property C79: what an event decodes to is bounded by the bytes of the event. *)
From Coq Require Import Strings.String.
From Verif Require Import Base.Tac Base.Bytes Base.Text Base.Res Base.Str Base.Parse Model.Codec Model.Values Model.TableMap Model.Rows Model.Events
  Spec.SizeSpec Proofs.SizeProofs Proofs.RowProofs.
Local Open Scope nat_scope.

Definition trailer (ck : checksum) : nat := match ck with CkNone => 0 | CkCrc32 => 4 end.
(* whatever the bytes, the state and the header *)
Theorem C79_decoded : forall bl st h slice e st', parse_event bl st h slice = Ok (e, st') ->
  event_weight e + trailer (ps_checksum st) <= length slice.
Proof.
  intros bl st h slice e st' H. unfold parse_event, rbind in H. destruct (event_payload (ps_checksum st) slice) as [p|er| |] eqn:P; try discriminate.
  destruct (event_body bl (ps_tables st) h p 0) as [[x pos]|er| |] eqn:E; try discriminate. assert (x = e) as -> by congruence. apply body_weight in E.
  unfold event_payload in P. destruct (ps_checksum st); cbn [trailer].
  - assert (p = slice) as -> by congruence. lia.
  - destruct (Nat.ltb_spec (length slice) 4); [discriminate|]. assert (p = firstn (length slice - 4) slice) as -> by congruence. rewrite firstn_length in E. lia.
Qed.
Print Assumptions C79_decoded.
(* at most one row per byte *)
Theorem C79_rows : forall bl st h slice e st', parse_event bl st h slice = Ok (e, st') ->
  match e with
  | EvWrite r | EvDelete r => length (re_rows r) <= length slice
  | EvUpdate u => length (ue_rows u) <= length slice
  | _ => True
  end.
Proof.
  intros bl st h slice e st' H. pose proof (C79_decoded _ _ _ _ _ _ H) as W. unfold parse_event, rbind in H. destruct (event_payload (ps_checksum st) slice) as [p|er| |]; try discriminate.
  destruct (event_body bl (ps_tables st) h p 0) as [[x pos]|er| |] eqn:E; try discriminate. assert (x = e) as -> by congruence. clear H.
  assert (R : forall v (c : rows_event -> event), pmap c (parse_rows_event bl (ps_tables st) v) p 0 = Ok (e, pos) -> exists r, e = c r /\ (In true (re_present r) \/ re_rows r = [])).
  { intros v c X. unfold pmap, pbind at 1 in X. destruct (parse_rows_event bl (ps_tables st) v p 0) as [[r q]|er| |] eqn:X1; try discriminate.
    exists r. split; [unfold ret in X; congruence|]. now apply rows_present in X1. }
  assert (U : forall v, pmap EvUpdate (parse_update_event bl (ps_tables st) v) p 0 = Ok (e, pos) -> exists u, e = EvUpdate u /\ (In true (ue_before u) \/ In true (ue_after u) \/ ue_rows u = [])).
  { intros v X. unfold pmap, pbind at 1 in X. destruct (parse_update_event bl (ps_tables st) v p 0) as [[u q]|er| |] eqn:X1; try discriminate.
    exists u. split; [unfold ret in X; congruence|]. now apply updates_present in X1. }
  assert (O : forall A (c : A -> event) (q : parser A), pmap c q p 0 = Ok (e, pos) -> exists a, e = c a).
  { intros A c q X. unfold pmap, pbind in X. destruct (q p 0) as [[a z]|er| |]; try discriminate. exists a. unfold ret in X. congruence. }
  assert (R2 : forall r, bits_weight (re_present r) + list_sum (map (row_weight (re_present r)) (re_rows r)) <= length slice -> In true (re_present r) \/ re_rows r = [] -> length (re_rows r) <= length slice).
  { intros r L [H|H]; [|rewrite H; cbn; lia]. pose proof (sum_ge (row_weight (re_present r)) (re_rows r)) as G.
    assert (forall x, 1 <= row_weight (re_present r) x) by (intros x; pose proof (filter_some _ H); unfold row_weight; lia). specialize (G H0). lia. }
  unfold event_body in E. cbv zeta in E.
  repeat match type of E with
  | (if ?c then pmap ?k ?q else _) p 0 = _ => destruct c;
      [first [ apply R in E; destruct E as (r & -> & E); cbn [event_weight] in W; apply R2; [lia|exact E]
             | apply U in E; destruct E as (u & -> & E); cbn [event_weight] in W
             | apply O in E; destruct E as (r & ->); exact I]|]
  end.
  1-2: destruct E as [E|[E|E]]; [| |rewrite E; cbn; lia]; apply filter_some in E;
    pose proof (sum_ge (fun q => row_weight (ue_before u) (fst q) + row_weight (ue_after u) (snd q)) (ue_rows u)) as G;
    match type of G with (?P -> _) => assert P as G1 by (intros x; cbn beta; unfold row_weight; lia); specialize (G G1) end; unfold update_row in *; lia.
  unfold ret in E. assert (e = EvUnknown) as -> by congruence. exact I.
Qed.
Print Assumptions C79_rows.
(* a hostile length does not help: the string must be there *)
Example C79_example : exists e st, parse_event Release (PState CkCrc32 []) (Header 0 14 0 0 0 0) (le_enc 4 3 ++ map n2b [97; 98; 99; 0; 0]%N ++ le_enc 4 33 ++ le_enc 4 2 ++ map n2b [104; 105; 0; 1; 2; 3; 4]%N) = Ok (e, st) /\
  event_weight e = 20%nat /\ e = EvUserVar (UserVar (tx "abc") (Some (VariableValue 0 33 (tx "hi") 0))) /\
  parse_event Release (PState CkCrc32 []) (Header 0 14 0 0 0 0) (le_enc 4 4000000000%N ++ map n2b [97; 98; 99; 0; 0; 1; 2; 3; 4]%N) = Err (EIo UnexpectedEof).
Proof. eexists _, _. split; [vm_compute; reflexivity|]. split; [reflexivity|]. split; [reflexivity|]. vm_compute. reflexivity. Qed.
(* Cells are not bounded so: NULL cells and columns left out are handed over too.  74 bytes, 8000 cells. *)
Theorem C79_cells_refuted : exists bl st h slice e st', parse_event bl st h slice = Ok (e, st') /\ 100 * length slice < event_cells e.
Proof.
  exists Release, (PState CkNone [(7%N, TableMap 7 [] [] (repeat 3%N 200) (repeat 0%N 200) [] None)]), (Header 0 23 0 0 0 0),
    (le_enc 6 7 ++ le_enc 2 1 ++ [n2b 200] ++ [n2b 1] ++ repeat (n2b 0) 24 ++ repeat (n2b 1) 40).
  eexists _, _. split; [vm_compute; reflexivity|]. apply Nat.ltb_lt. vm_compute. reflexivity.
Qed.
Print Assumptions C79_cells_refuted.

(* They are bounded by the square of the bytes, whatever the table map says and whatever the state. *)
Lemma row_narrow bl t ps n buf pos r pos' : parse_row bl t ps n buf pos = Ok (r, pos') -> length r <= length ps.
Proof.
  unfold parse_row, pbind. destruct (read_bitmap_le n buf pos) as [[nulls p1]|e| |]; try discriminate. intros H.
  apply parse_columns_shape in H. destruct H as (H1 & H2 & _). lia.
Qed.
Lemma rows_narrow bl ts v buf r pos' : parse_rows_event bl ts v buf 0 = Ok (r, pos') -> Forall (fun x : row => length x <= length (re_present r)) (re_rows r).
Proof.
  intros E. unfold parse_rows_event, pbind at 1 in E. destruct (parse_head v buf 0) as [[[[id fl] n] q1]|e| |]; try discriminate.
  unfold pbind at 1 in E. destruct (read_bitmap_le n buf q1) as [[ps q2]|e| |]; try discriminate.
  unfold pbind, parse_row_list in E. destruct (tables_get id ts) as [t|]; [|discriminate].
  destruct (pwhile (parse_row bl t ps (bits_number ps)) buf q2) as [[rs q3]|e| |] eqn:E3; try discriminate. unfold ret in E. inv E. cbn [re_present re_rows].
  revert E3. apply pwhile_all. intros b p a p'. apply row_narrow.
Qed.
Lemma updates_narrow bl ts v buf u pos' : parse_update_event bl ts v buf 0 = Ok (u, pos') ->
  Forall (fun x : update_row => length (fst x) <= length (ue_before u) /\ length (snd x) <= length (ue_after u)) (ue_rows u).
Proof.
  intros E. unfold parse_update_event, pbind at 1 in E. destruct (parse_head v buf 0) as [[[[id fl] n] q1]|e| |]; try discriminate.
  unfold pbind at 1 in E. destruct (read_bitmap_le n buf q1) as [[b q2]|e| |]; try discriminate.
  unfold pbind at 1 in E. destruct (read_bitmap_le n buf q2) as [[a q3]|e| |]; try discriminate.
  unfold pbind at 1, parse_update_row_list in E. destruct (tables_get id ts) as [t|]; [|discriminate].
  match type of E with match pwhile ?p _ _ with _ => _ end = _ => destruct (pwhile p buf q3) as [[rs q4]|e| |] eqn:E4; try discriminate end.
  unfold ret in E. inv E. cbn [ue_before ue_after ue_rows]. revert E4. apply pwhile_all.
  intros buf0 pos x q E. unfold pbind at 1 in E. destruct (parse_row bl t b (bits_number b) buf0 pos) as [[rb p1]|e| |] eqn:Y1; try discriminate. unfold pbind in E.
  destruct (parse_row bl t a (bits_number a) buf0 p1) as [[ra p2]|e| |] eqn:Y2; try discriminate. unfold ret in E. inv E. cbn [fst snd].
  split; [exact (row_narrow _ _ _ _ _ _ _ _ Y1)|exact (row_narrow _ _ _ _ _ _ _ _ Y2)].
Qed.
Lemma sum_le {A} (w : A -> nat) k l : Forall (fun x => w x <= k) l -> list_sum (map w l) <= length l * k.
Proof. induction 1 as [|x l H _ IH]; [cbn; lia|]. cbn [map list_sum fold_right length] in *. unfold list_sum in *. lia. Qed.
Lemma weight_len bs : length bs <= 8 * bits_weight bs.
Proof. unfold bits_weight. pose proof (Nat.div_mod (length bs + 7) 8). pose proof (Nat.mod_upper_bound (length bs + 7) 8). lia. Qed.
Lemma square n r b L : n <= r * (8 * b) -> b + r <= L -> n <= 2 * (L * L).
Proof.
  intros H1 H2. assert (4 * (b * r) <= (b + r) * (b + r)).
  { destruct (Nat.le_ge_cases b r) as [H|H]; [replace r with (b + (r - b)) by lia; generalize (r - b)|replace b with (r + (b - r)) by lia; generalize (b - r)]; intros d; nia. }
  pose proof (Nat.mul_le_mono _ _ _ _ H2 H2). lia.
Qed.
Theorem C79_cells_square : forall bl st h slice e st', parse_event bl st h slice = Ok (e, st') -> event_cells e <= 2 * (length slice * length slice).
Proof.
  intros bl st h slice e st' H. pose proof (C79_decoded _ _ _ _ _ _ H) as W. unfold parse_event, rbind in H. destruct (event_payload (ps_checksum st) slice) as [p|er| |]; try discriminate.
  destruct (event_body bl (ps_tables st) h p 0) as [[x pos]|er| |] eqn:E; try discriminate. assert (x = e) as -> by congruence. clear H.
  assert (R : forall v (c : rows_event -> event), pmap c (parse_rows_event bl (ps_tables st) v) p 0 = Ok (e, pos) ->
    exists r, e = c r /\ (In true (re_present r) \/ re_rows r = []) /\ Forall (fun x : row => length x <= length (re_present r)) (re_rows r)).
  { intros v c X. unfold pmap, pbind at 1 in X. destruct (parse_rows_event bl (ps_tables st) v p 0) as [[r q]|er| |] eqn:X1; try discriminate.
    exists r. split; [unfold ret in X; congruence|]. split; [now apply rows_present in X1|now apply rows_narrow in X1]. }
  assert (U : forall v, pmap EvUpdate (parse_update_event bl (ps_tables st) v) p 0 = Ok (e, pos) -> exists u, e = EvUpdate u /\ (In true (ue_before u) \/ In true (ue_after u) \/ ue_rows u = []) /\
    Forall (fun x : update_row => length (fst x) <= length (ue_before u) /\ length (snd x) <= length (ue_after u)) (ue_rows u)).
  { intros v X. unfold pmap, pbind at 1 in X. destruct (parse_update_event bl (ps_tables st) v p 0) as [[u q]|er| |] eqn:X1; try discriminate.
    exists u. split; [unfold ret in X; congruence|]. split; [now apply updates_present in X1|now apply updates_narrow in X1]. }
  assert (O : forall A (c : A -> event) (q : parser A), pmap c q p 0 = Ok (e, pos) -> exists a, e = c a).
  { intros A c q X. unfold pmap, pbind in X. destruct (q p 0) as [[a z]|er| |]; try discriminate. exists a. unfold ret in X. congruence. }
  assert (R2 : forall r, bits_weight (re_present r) + list_sum (map (row_weight (re_present r)) (re_rows r)) <= length slice ->
    (In true (re_present r) \/ re_rows r = []) /\ Forall (fun x : row => length x <= length (re_present r)) (re_rows r) ->
    list_sum (map (@length _) (re_rows r)) <= 2 * (length slice * length slice)).
  { intros r L [[H|H] F]; [|rewrite H; cbn; lia]. pose proof (sum_ge (row_weight (re_present r)) (re_rows r)) as G.
    assert (G1 : forall x, 1 <= row_weight (re_present r) x) by (intros x; pose proof (filter_some _ H); unfold row_weight; lia). specialize (G G1).
    apply sum_le in F. pose proof (weight_len (re_present r)) as WL. apply (square _ (length (re_rows r)) (bits_weight (re_present r))); [|lia].
    eapply Nat.le_trans; [exact F|]. now apply Nat.mul_le_mono_l. }
  unfold event_body in E. cbv zeta in E.
  repeat match type of E with
  | (if ?c then pmap ?k ?q else _) p 0 = _ => destruct c;
      [first [ apply R in E; destruct E as (r & -> & E); cbn [event_weight event_cells] in *; apply R2; [lia|exact E]
             | apply U in E; destruct E as (u & -> & E & F); cbn [event_weight event_cells] in *
             | apply O in E; destruct E as (r & ->); cbn [event_cells]; lia]|]
  end.
  1-2: destruct E as [E|[E|E]]; [| |rewrite E; cbn; lia]; apply filter_some in E;
    pose proof (sum_ge (fun q => row_weight (ue_before u) (fst q) + row_weight (ue_after u) (snd q)) (ue_rows u)) as G;
    (match type of G with (?P -> _) => assert P as G1 by (intros x; cbn beta; unfold row_weight; lia); specialize (G G1) end);
    pose proof (weight_len (ue_before u)) as WB; pose proof (weight_len (ue_after u)) as WA;
    (apply (square _ (length (ue_rows u)) (bits_weight (ue_before u) + bits_weight (ue_after u))); [|unfold update_row in *; lia]);
    apply (sum_le (fun q : update_row => length (fst q) + length (snd q)));
    (eapply Forall_impl; [|exact F]); intros q [F1 F2]; cbn beta in *; lia.
  unfold ret in E. assert (e = EvUnknown) as -> by congruence. cbn [event_cells]. lia.
Qed.
Print Assumptions C79_cells_square.
(* 64 bytes, 6000 cells: the bound is 8192 *)
Example C79_cells_example : exists e st', parse_event Release (PState CkNone [(7%N, TableMap 7 [] [] (repeat 3%N 200) (repeat 0%N 200) [] None)]) (Header 0 23 0 0 0 0)
    (le_enc 6 7 ++ le_enc 2 1 ++ [n2b 200] ++ [n2b 1] ++ repeat (n2b 0) 24 ++ repeat (n2b 1) 30) = Ok (e, st') /\ event_cells e = 6000.
Proof. eexists _, _. split; [vm_compute; reflexivity|]. vm_compute. reflexivity. Qed.
