(* Which parts of its input and of the parser state an event depends on (C89-C91). *)
From Verif Require Import Base.Tac Base.Bytes Base.Text Base.Res Base.Str Base.Parse Base.Loop Model.Codec Model.Values Model.TableMap Model.Rows Model.Gtid Model.GtidMaria Model.Events Spec.ForwardSpec.
Local Open Scope N_scope.

(* ---- parsers that stop at a place decided by what they have read ---- *)
Definition stable {A} (p : parser A) : Prop := forall buf pos a q, p buf pos = Ok (a, q) -> forall more, p (buf ++ more) pos = Ok (a, q).
Lemma stable_ret {A} (a : A) : stable (ret a).
Proof. intros buf pos b q E more. exact E. Qed.
Lemma stable_fail {A} e : stable (@fail A e).
Proof. intros buf pos a q E. discriminate. Qed.
Lemma stable_panic {A} : stable (fun _ _ => @Panic (A * nat)).
Proof. intros buf pos a q E. discriminate. Qed.
Lemma stable_lift {A} (r : res A) : stable (lift r).
Proof. intros buf pos a q E more. exact E. Qed.
Lemma stable_seek d : stable (seek_cur d).
Proof. intros buf pos a q E more. exact E. Qed.
Lemma stable_bind {A B} (p : parser A) (f : A -> parser B) : stable p -> (forall a, stable (f a)) -> stable (pbind p f).
Proof.
  intros P F buf pos b q E more. unfold pbind in *. destruct (p buf pos) as [[a q1]|e| |] eqn:E1; try discriminate.
  rewrite (P _ _ _ _ E1 more). now apply F.
Qed.
Lemma stable_bytes n : stable (read_bytes n).
Proof.
  intros buf pos a q E more. unfold read_bytes in *. destruct (alloc n) as [u|e| |]; try discriminate. cbn [rbind] in *.
  destruct (N.ltb_spec (N.of_nat (length buf - pos)) n) as [|L]; [discriminate|].
  destruct (N.ltb_spec (N.of_nat (length (buf ++ more) - pos)) n) as [L2|_]; [rewrite app_length in L2; lia|].
  injection E as <- <-. f_equal. f_equal. destruct (Nat.le_gt_cases pos (length buf)) as [H|H].
  - rewrite skipn_app. replace (pos - length buf)%nat with 0%nat by lia. cbn [skipn]. rewrite firstn_app.
    rewrite skipn_length. replace (N.to_nat n - (length buf - pos))%nat with 0%nat by lia. now rewrite app_nil_r.
  - replace (N.to_nat n) with 0%nat by lia. reflexivity.
Qed.
Ltac st1 := first [apply stable_ret | apply stable_fail | apply stable_panic | apply stable_lift | apply stable_seek | apply stable_bytes].
Lemma stable_le k : stable (read_le k).
Proof. apply stable_bind; [|intros]; st1. Qed.
Lemma stable_be k : stable (read_be k).
Proof. apply stable_bind; [|intros]; st1. Qed.
Lemma stable_uint_le n : stable (read_uint_le n).
Proof. unfold read_uint_le. destruct (_ || _); [st1|]. apply stable_bind; [|intros]; st1. Qed.
Lemma stable_string n : stable (read_string n).
Proof. apply stable_bind; [|intros]; st1. Qed.
Lemma stable_bitmap n : stable (read_bitmap_le n).
Proof. apply stable_bind; [st1|]. intros. apply stable_bind; [|intros]; st1. Qed.
Lemma stable_lenenc : stable read_len_enc_num.
Proof.
  unfold read_len_enc_num. apply stable_bind; [apply stable_le|]. intros c.
  repeat (match goal with |- stable (if ?b then _ else _) => destruct b end; try (first [st1|apply stable_le])).
Qed.
Lemma stable_ploop_aux {A} (p : parser A) : stable p -> forall fuel n buf pos xs q, ploop_aux fuel n p buf pos = Ok (xs, q) ->
  forall more fuel', (fuel <= fuel')%nat -> ploop_aux fuel' n p (buf ++ more) pos = Ok (xs, q).
Proof.
  intros P. induction fuel as [|f IH]; intros n buf pos xs q E more fuel' L.
  - cbn [ploop_aux] in E. destruct fuel' as [|f']; cbn [ploop_aux]; destruct (n =? 0); try exact E; discriminate.
  - destruct fuel' as [|f']; [lia|]. cbn [ploop_aux] in *. destruct (n =? 0); [exact E|]. unfold pbind in *.
    destruct (p buf pos) as [[x q1]|e| |] eqn:E1; try discriminate. rewrite (P _ _ _ _ E1 more).
    destruct (ploop_aux f (n - 1) p buf q1) as [[ys q2]|e| |] eqn:E2; try discriminate.
    now rewrite (IH _ _ _ _ _ E2 more f' ltac:(lia)).
Qed.
Lemma stable_ploop {A} n (p : parser A) : stable p -> stable (ploop n p).
Proof. intros P buf pos xs q E more. unfold ploop in *. apply (stable_ploop_aux p P _ _ _ _ _ _ E). rewrite app_length. lia. Qed.
Ltac st := repeat first [st1 | apply stable_le | apply stable_be | apply stable_string | apply stable_bitmap | apply stable_lenenc | apply stable_ploop | apply stable_bind; [|intros]
  | match goal with |- stable (if ?b then _ else _) => destruct b end].
Lemma stable_fixed bl ts h : In (h_type h) [5; 14; 16; 33; 35; 162; 163] -> stable (event_body bl ts h).
Proof.
  intros H. assert (X : forall c, h_type h = c -> c = h_type h) by auto. unfold event_body. cbn [In] in H.
  destruct H as [H|[H|[H|[H|[H|[H|[H|[]]]]]]]]; rewrite <- H; cbn [N.eqb Pos.eqb]; unfold pmap; apply stable_bind; try (intros; st1).
  - unfold parse_intvar, read_u8, read_u64. st.
  - unfold parse_uservar, read_u8, read_u32. st.
  - apply stable_le.
  - unfold parse_mysql_gtid, read_u8, read_u64. st.
  - unfold parse_prev_gtids, prev_uuid_set, prev_interval, read_u64. st.
  - unfold parse_maria_gtid, read_u8, read_u64, read_u32. st.
  - unfold parse_maria_gtid_list, list_gtid, read_u32, read_u64. st.
Qed.

(* ---- table maps: everything before the optional metadata is stable, and so is each metadata field ---- *)
Lemma stable_column_meta c : stable (column_meta c).
Proof. unfold column_meta, read_u8, read_u16. apply stable_bind; [st1|]. intros t. destruct t; st. Qed.
Lemma stable_columns_meta cts : stable (columns_meta cts).
Proof. induction cts as [|c r IH]; cbn [columns_meta]; [st1|]. apply stable_bind; [apply stable_column_meta|]. intros m. apply stable_bind; [exact IH|]. intros. st1. Qed.
Lemma stable_on_buffer {A} bs (p : parser A) : stable (on_buffer bs p).
Proof. apply stable_lift. Qed.
Lemma stable_field cts m : stable (metadata_field cts m).
Proof.
  unfold metadata_field, read_u8. apply stable_bind; [apply stable_le|]. intros code. apply stable_bind; [destruct (_ && _); st1|]. intros _.
  apply stable_bind; [apply stable_lenenc|]. intros len. apply stable_bind; [st1|]. intros bs. destruct m.
  repeat match goal with |- stable (if ?b then _ else _) => destruct b end;
  repeat (apply stable_bind; [first [apply stable_lift|apply stable_on_buffer]|intros]); st1.
Qed.

(* a loop that ended goes on with what follows *)
Lemma loop_more cts fuel : forall m buf pos m' q, metadata_loop fuel cts m buf pos = Ok (m', q) -> forall more fuel', (fuel <= fuel')%nat ->
  (length buf <= q)%nat /\ exists k, (fuel' - fuel <= k)%nat /\ metadata_loop fuel' cts m (buf ++ more) pos = metadata_loop k cts m' (buf ++ more) q.
Proof.
  induction fuel as [|f IH]; intros m buf pos m' q E more fuel' L; cbn [metadata_loop] in E.
  - destruct (Nat.ltb_spec pos (length buf)) as [|G]; [discriminate|]. injection E as <- <-. split; [exact G|]. exists fuel'. split; [lia|reflexivity].
  - destruct (Nat.ltb_spec pos (length buf)) as [G|G].
    + destruct fuel' as [|f']; [lia|]. unfold pbind in E. destruct (metadata_field cts m buf pos) as [[m1 q1]|e| |] eqn:E1; try discriminate.
      destruct (IH _ _ _ _ _ E more f' ltac:(lia)) as (Q & k & K & R). split; [exact Q|]. exists k. split; [lia|].
      cbn [metadata_loop]. destruct (Nat.ltb_spec pos (length (buf ++ more))) as [_|X]; [|rewrite app_length in X; lia].
      unfold pbind. rewrite (stable_field _ _ _ _ _ _ E1 more). exact R.
    + injection E as <- <-. split; [exact G|]. exists fuel'. split; [lia|reflexivity].
Qed.

From Verif Require Import Proofs.CodecProofs Proofs.SizeProofs.
(* the part of a table map event before the optional metadata *)
Definition table_head : parser (table_metadata + unit -> table_map) :=
  table_id <- read_u48 ;; seek_cur 2 ;;; dl <- read_u8 ;; db <- read_string dl ;; seek_cur 1 ;;; tl <- read_u8 ;; tn <- read_string tl ;; seek_cur 1 ;;;
  cn <- read_len_enc_num ;; cts <- read_bytes cn ;; _ml <- read_len_enc_num ;; meta <- columns_meta (map b2n cts) ;; nb <- read_bitmap_le cn ;;
  ret (fun md => TableMap table_id db tn (map b2n cts) meta nb (match md with inl m => Some m | inr _ => None end)).
Definition table_tail (k : table_metadata + unit -> table_map) : parser table_map :=
  pos <- get_pos ;; len <- get_len ;;
  (if (pos <? len)%nat then m <- parse_table_metadata (tb_types (k (inr tt))) ;; ret (k (inl m)) else ret (k (inr tt))).
Lemma pbind_assoc {A B C} (p : parser A) (f : A -> parser B) (g : B -> parser C) buf pos : pbind (pbind p f) g buf pos = pbind p (fun a => pbind (f a) g) buf pos.
Proof. unfold pbind. destruct (p buf pos) as [[a q]|e| |]; reflexivity. Qed.
Lemma pbind_ext {A B} (p : parser A) (f g : A -> parser B) buf pos : (forall a q, f a buf q = g a buf q) -> pbind p f buf pos = pbind p g buf pos.
Proof. intros H. unfold pbind. destruct (p buf pos) as [[a q]|e| |]; [apply H|reflexivity..]. Qed.
Lemma table_split buf pos : parse_table_map buf pos = pbind table_head table_tail buf pos.
Proof.
  unfold parse_table_map, table_head. repeat (rewrite pbind_assoc; apply pbind_ext; intros). cbv zeta.
  unfold table_tail, pbind, ret, get_pos, get_len. cbn [tb_types]. destruct (Nat.ltb _ _); [|reflexivity].
  destruct (parse_table_metadata _ _ _) as [[m r]|e| |]; reflexivity.
Qed.
Lemma stable_table_head : stable table_head.
Proof. unfold table_head, read_u48, read_u8. repeat (apply stable_bind; [first [st1|apply stable_le|apply stable_string|apply stable_lenenc|apply stable_columns_meta|apply stable_bitmap]|intros]). st1. Qed.
Lemma unknown_field cts m buf code more : ~ (1 <= b2n code <= 12) ->
  metadata_field cts m (buf ++ code :: more) (length buf) = Err (EString (unknown_metadata (b2n code))).
Proof.
  intros H. unfold metadata_field, pbind at 1, read_u8.
  assert (E : read_le 1 (buf ++ code :: more) (length buf) = Ok (b2n code, (length buf + 1)%nat)).
  { pose proof (runs_read_le_bytes [code] ltac:(unfold isize_max; cbn [length]; lia) buf more) as R. cbn [length app] in R. rewrite R.
    unfold le_dec. f_equal. f_equal. lia. }
  rewrite E. unfold pbind at 1. destruct ((1 <=? b2n code) && (b2n code <=? 12)) eqn:B; [|reflexivity].
  apply andb_prop in B. destruct B as [B1 B2]. apply N.leb_le in B1, B2. lia.
Qed.
Theorem table_map_unknown buf t q code more : parse_table_map buf 0%nat = Ok (t, q) -> ~ (1 <= b2n code <= 12) ->
  parse_table_map (buf ++ code :: more) 0%nat = Err (EString (unknown_metadata (b2n code))).
Proof.
  intros E H. destruct (table_map_spec _ _ _ E) as [_ L]. rewrite table_split in *. unfold pbind in E |- * at 1.
  destruct (table_head buf 0%nat) as [[k q0]|e| |] eqn:T; try discriminate. rewrite (stable_table_head _ _ _ _ T (code :: more)).
  unfold table_tail, pbind, get_pos, get_len in E |- *.
  assert (F : forall f cts m, metadata_loop (S f) cts m (buf ++ code :: more) (length buf) = Err (EString (unknown_metadata (b2n code)))).
  { intros f cts m. cbn [metadata_loop]. destruct (Nat.ltb_spec (length buf) (length (buf ++ code :: more))) as [_|X]; [|rewrite app_length in X; cbn [length] in X; lia].
    unfold pbind at 1. now rewrite unknown_field. }
  destruct (Nat.ltb_spec q0 (length buf)) as [G|G].
  - destruct (Nat.ltb_spec q0 (length (buf ++ code :: more))) as [_|X]; [|rewrite app_length in X; lia].
    unfold parse_table_metadata in *. unfold pbind in E |- *. destruct (metadata_loop _ _ _ buf q0) as [[m q1]|e| |] eqn:M; try discriminate. unfold ret in E. injection E as _ <-.
    destruct (loop_more _ _ _ _ _ _ _ M (code :: more) (S (length (buf ++ code :: more)))) as (Q & k1 & K & R); [rewrite app_length; lia|].
    rewrite R. assert (q1 = length buf) by lia. subst q1. rewrite app_length in K. cbn [length] in K. destruct k1 as [|k1]; [lia|]. now rewrite F.
  - assert (q0 = length buf) by (unfold ret in E; injection E as _ <-; lia). subst q0.
    destruct (Nat.ltb_spec (length buf) (length (buf ++ code :: more))) as [_|X]; [|rewrite app_length in X; cbn [length] in X; lia].
    unfold parse_table_metadata, pbind. now rewrite F.
Qed.

(* ---- rows events: only the table map of the table they name ---- *)
Lemma head_id v buf id fl c q : parse_head v buf 0%nat = Ok ((id, fl, c), q) -> id = le_dec (firstn 6 buf).
Proof.
  intros E. unfold parse_head, pbind at 1 in E. unfold read_u48, read_le, pbind at 1, read_bytes in E.
  destruct (alloc (N.of_nat 6)) as [u|e| |]; try discriminate. cbn [rbind] in E. destruct (_ <? _); [discriminate|]. unfold ret at 1 in E.
  change (N.to_nat (N.of_nat 6)) with 6%nat in E. cbn [skipn Nat.add] in E.
  unfold pbind at 1 in E. destruct (read_u16 buf 6%nat) as [[f q2]|e| |]; try discriminate. unfold pbind at 1 in E.
  match type of E with match ?x with _ => _ end = _ => destruct x as [[u3 q3]|e| |]; try discriminate end.
  unfold pbind in E. destruct (read_len_enc_num buf q3) as [[n q4]|e| |]; try discriminate. unfold ret in E. now injection E as <- _ _ _.
Qed.
Lemma pbind_on {A B} (p : parser A) (f g : A -> parser B) buf pos : (forall a q, p buf pos = Ok (a, q) -> f a buf q = g a buf q) -> pbind p f buf pos = pbind p g buf pos.
Proof. intros H. unfold pbind. destruct (p buf pos) as [[a q]|e| |]; [now apply H|reflexivity..]. Qed.
Lemma rows_table bl v ts1 ts2 buf : tables_get (le_dec (firstn 6 buf)) ts1 = tables_get (le_dec (firstn 6 buf)) ts2 ->
  parse_rows_event bl ts1 v buf 0%nat = parse_rows_event bl ts2 v buf 0%nat.
Proof.
  intros H. unfold parse_rows_event. apply pbind_on. intros [[id fl] c] q E.
  apply head_id in E. subst id. apply pbind_ext. intros present q1. cbv beta. unfold parse_row_list. now rewrite H.
Qed.
Lemma update_table bl v ts1 ts2 buf : tables_get (le_dec (firstn 6 buf)) ts1 = tables_get (le_dec (firstn 6 buf)) ts2 ->
  parse_update_event bl ts1 v buf 0%nat = parse_update_event bl ts2 v buf 0%nat.
Proof.
  intros H. unfold parse_update_event. apply pbind_on. intros [[id fl] c] q E.
  apply head_id in E. subst id. apply pbind_ext. intros b q1. apply pbind_ext. intros a q2. unfold parse_update_row_list. now rewrite H.
Qed.
Lemma pmap_cong {A B} (f : A -> B) (p1 p2 : parser A) buf pos : p1 buf pos = p2 buf pos -> pmap f p1 buf pos = pmap f p2 buf pos.
Proof. intros H. unfold pmap, pbind. now rewrite H. Qed.
Lemma body_table bl ts1 ts2 h buf : (In (h_type h) row_codes -> tables_get (le_dec (firstn 6 buf)) ts1 = tables_get (le_dec (firstn 6 buf)) ts2) ->
  event_body bl ts1 h buf 0%nat = event_body bl ts2 h buf 0%nat.
Proof.
  intros H. unfold event_body.
  repeat match goal with |- context [h_type h =? ?k] => destruct (N.eqb_spec (h_type h) k) as [X|_];
    [first [reflexivity | apply pmap_cong; first [apply rows_table | apply update_table]; apply H; rewrite X; unfold row_codes; cbn [In]; tauto]|] end.
  reflexivity.
Qed.
(* without six bytes a rows event fails before the table is looked up *)
Lemma head_short v buf : (length buf < 6)%nat -> parse_head v buf 0%nat = Err (EIo UnexpectedEof).
Proof.
  intros H. unfold parse_head, pbind at 1, read_u48, read_le, pbind at 1, read_bytes. rewrite alloc_ok by (unfold isize_max; lia). cbn [rbind].
  destruct (N.ltb_spec (N.of_nat (length buf - 0)) (N.of_nat 6)); [reflexivity|lia].
Qed.
Lemma body_short bl ts1 ts2 h buf : (length buf < 6)%nat -> event_body bl ts1 h buf 0%nat = event_body bl ts2 h buf 0%nat.
Proof.
  intros L. unfold event_body.
  repeat match goal with |- context [h_type h =? ?k] => destruct (N.eqb_spec (h_type h) k) as [X|_];
    [first [reflexivity | apply pmap_cong; unfold parse_rows_event, parse_update_event, pbind; now rewrite head_short]|] end.
  reflexivity.
Qed.

(* ---- the type code decides which kind of event comes out ---- *)
Lemma pmap_inv {A B} (f : A -> B) p buf pos b q : pmap f p buf pos = Ok (b, q) -> exists a, b = f a.
Proof. unfold pmap, pbind, ret. destruct (p buf pos) as [[a q1]|e| |]; try discriminate. intros H. injection H as <- _. eauto. Qed.
Lemma body_code bl ts h buf pos e q : event_body bl ts h buf pos = Ok (e, q) -> code_of e (h_type h).
Proof.
  unfold event_body. intros E.
  repeat match type of E with context [h_type h =? ?k] => destruct (N.eqb_spec (h_type h) k) as [X|?];
    [apply pmap_inv in E; destruct E as [a ->]; cbn [code_of]; auto|] end.
  unfold ret in E. injection E as <- _. cbn [code_of In]. intuition congruence.
Qed.
Lemma body_header bl ts h h' : h_type h = h_type h' -> h_server h = h_server h' -> h_type h <> 15 -> event_body bl ts h = event_body bl ts h'.
Proof.
  intros T V N. unfold event_body. rewrite <- T. destruct (N.eqb_spec (h_type h) 15) as [|_]; [contradiction|]. unfold parse_maria_gtid. now rewrite V.
Qed.
