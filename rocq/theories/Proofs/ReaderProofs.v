(* BinlogReader *)
From Verif Require Import Base.Tac Base.Bytes Base.Text Base.Res Base.Str Base.Parse Model.Events Model.Reader Spec.EventSpec Spec.ReaderSpec
  Proofs.EventProofs.
Local Open Scope N_scope.

Lemma bytes_eqb_spec a b : reflect (a = b) (bytes_eqb a b).
Proof.
  revert b. induction a as [|x a IH]; intros [|y b]; cbn [bytes_eqb]; try (constructor; congruence).
  destruct (byte_eqb_spec x y) as [->|]; cbn [andb]; [|constructor; congruence]. destruct (IH b) as [->|]; constructor; congruence.
Qed.
Lemma app_inj_len {A} (a b c d : list A) : length a = length c -> a ++ b = c ++ d -> a = c /\ b = d.
Proof.
  revert c. induction a as [|x a IH]; intros [|y c] L E; try discriminate; [auto|]. cbn [app length] in *. injection L as L. injection E as -> E.
  destruct (IH c L E) as [-> ->]. auto.
Qed.
Lemma read_exact_app a b n : N.of_nat (length a) = n -> read_exact n (a ++ b) = (Ok a, b).
Proof.
  intros <-. unfold read_exact. rewrite app_length. destruct (N.ltb_spec (N.of_nat (length a + length b)) (N.of_nat (length a))); [lia|].
  rewrite Nat2N.id, firstn_app, skipn_app, Nat.sub_diag, firstn_all, skipn_all. cbn [firstn skipn app]. now rewrite app_nil_r.
Qed.
Lemma read_exact_short n f : N.of_nat (length f) < n -> read_exact n f = (Err (EIo UnexpectedEof), []).
Proof. intros H. unfold read_exact. destruct (N.ltb_spec (N.of_nat (length f)) n); [reflexivity|lia]. Qed.
Lemma read_exact_ok n f bs r : read_exact n f = (Ok bs, r) -> f = bs ++ r /\ N.of_nat (length bs) = n.
Proof.
  unfold read_exact. destruct (N.ltb_spec (N.of_nat (length f)) n); [discriminate|]. intros E. inv E.
  rewrite firstn_skipn, firstn_length. split; [reflexivity|lia].
Qed.
Lemma header_len h : length (header_bytes h) = 19%nat.
Proof. unfold header_bytes. rewrite !app_length, !le_enc_length. reflexivity. Qed.

(* reading one event: the result only depends on file and decoder state *)
Lemma read_event_frame bl rd f tail : framed_ok f -> rd_file rd = frame f ++ tail ->
  exists buf, read_event bl rd = with_event (fst f) (parse_event bl (rd_parser rd) (fst f) (snd f)) (Reader tail (rd_parser rd) buf).
Proof.
  destruct f as [h p]. intros [Hh Hl] Hf. cbn [fst snd] in *. unfold read_event. rewrite Hf. unfold frame. cbn [fst snd].
  rewrite <- app_assoc, (read_exact_app (header_bytes h)) by (rewrite header_len; reflexivity).
  pose proof (header_exact h [] Hh) as E. rewrite app_nil_r in E. rewrite E. clear E.
  assert (Hu : h_length h < 4294967296) by (destruct Hh as (_ & _ & _ & U & _); exact U).
  unfold event_header_size. rewrite usub_ok by lia. replace (h_length h - 19) with (N.of_nat (length p)) by lia.
  rewrite (read_exact_app p tail) by reflexivity. destruct (_ <? _).
  - rewrite alloc_ok by (unfold isize_max; lia). eauto.
  - eexists. rewrite Nat2N.id, firstn_app, Nat.sub_diag, firstn_all. cbn [firstn]. rewrite app_nil_r. reflexivity.
Qed.
Lemma next_frame bl rd f tail : framed_ok f -> rd_file rd = frame f ++ tail ->
  exists buf, next bl rd =
    match parse_event bl (rd_parser rd) (fst f) (snd f) with
    | Ok (e, st) => (Ok (Some (inl (fst f, e))), Reader tail st buf)
    | Err (EIo UnexpectedEof) => (Ok None, Reader tail (rd_parser rd) buf)
    | Err er => (Ok (Some (inr er)), Reader tail (rd_parser rd) buf)
    | Panic => (Panic, Reader tail (rd_parser rd) buf)
    | Diverge => (Diverge, Reader tail (rd_parser rd) buf)
    end.
Proof.
  intros H1 H2. destruct (read_event_frame bl rd f tail H1 H2) as [buf E]. exists buf. unfold next. rewrite E. unfold with_event. cbn [rd_file rd_buffer].
  destruct (parse_event _ _ _ _) as [[e st]|er| |]; try reflexivity.
Qed.

(* no complete event left *)
Lemma next_nothing bl st buf : next bl (Reader [] st buf) = (Ok None, Reader [] st buf).
Proof. reflexivity. Qed.
Lemma nones_nothing bl n : forall st buf, nones bl n (Reader [] st buf).
Proof. induction n as [|n IH]; intros st buf; cbn [nones]; [exact I|]. exists (Reader [] st buf). split; [reflexivity|apply IH]. Qed.
Lemma next_partial bl st buf f k : framed_ok f -> (k < length (frame f))%nat ->
  exists buf', next bl (Reader (firstn k (frame f)) st buf) = (Ok None, Reader [] st buf').
Proof.
  destruct f as [h p]. intros [Hh Hl] Hk. unfold frame in *. cbn [fst snd] in *. unfold next, read_event. cbn [rd_file rd_parser rd_buffer].
  rewrite app_length, header_len in Hk. destruct (Nat.lt_ge_cases k 19) as [L|L].
  - rewrite read_exact_short by (rewrite firstn_length, app_length, header_len; unfold event_header_size; lia). eauto.
  - rewrite firstn_app, header_len, firstn_all2 by (rewrite header_len; lia).
    rewrite (read_exact_app (header_bytes h)) by (rewrite header_len; reflexivity).
    pose proof (header_exact h [] Hh) as E. rewrite app_nil_r in E. rewrite E. clear E.
    assert (Hu : h_length h < 4294967296) by (destruct Hh as (_ & _ & _ & U & _); exact U).
    unfold event_header_size. rewrite usub_ok by lia. replace (h_length h - 19) with (N.of_nat (length p)) by lia.
    rewrite (read_exact_short (N.of_nat (length p))) by (rewrite firstn_length; lia).
    destruct (_ <? _); [rewrite alloc_ok by (unfold isize_max; lia)|]; eauto.
Qed.
Lemma yields_partial bl st buf f k : framed_ok f -> (k < length (frame f))%nat -> yields bl (Reader (firstn k (frame f)) st buf) [].
Proof.
  intros H1 H2. apply yi_end. intros [|n]; [exact I|]. destruct (next_partial bl st buf f k H1 H2) as [buf' E].
  cbn [nones]. eexists. split; [exact E|apply nones_nothing].
Qed.

Lemma yields_cut bl fs : Forall framed_ok fs -> forall k st buf is, decoded bl st (complete k fs) is ->
  yields bl (Reader (firstn k (flat_map frame fs)) st buf) is.
Proof.
  induction 1 as [|[h p] fs Hf Hfs IH]; intros k st buf is D; cbn [complete flat_map] in *.
  - inv D. rewrite firstn_nil. apply yi_end. intros n. apply nones_nothing.
  - destruct (Nat.leb_spec (length (frame (h, p))) k) as [L|L].
    + rewrite firstn_app, firstn_all2 by exact L.
      destruct (next_frame bl (Reader (frame (h, p) ++ firstn (k - length (frame (h, p))) (flat_map frame fs)) st buf) (h, p) (firstn (k - length (frame (h, p))) (flat_map frame fs)) Hf eq_refl) as [buf' E].
      cbn [fst snd rd_parser] in E. inv D.
      * match goal with X : parse_event _ _ _ _ = _ |- _ => rewrite X in E end. eapply yi_item; [exact E|]. now apply IH.
      * match goal with X : parse_event _ _ _ _ = _ |- _ => rewrite X in E end. eapply yi_item; [destruct er as [[]| | | | | | |]; try exact E; congruence|]. now apply IH.
    + inv D. rewrite firstn_app. replace (k - length (frame (h, p)))%nat with 0%nat by lia. cbn [firstn]. rewrite app_nil_r. now apply yields_partial.
Qed.
Lemma complete_all k fs : (length (flat_map frame fs) <= k)%nat -> complete k fs = fs.
Proof.
  revert k. induction fs as [|f fs IH]; intros k H; cbn [complete flat_map] in *; [reflexivity|]. rewrite app_length in H.
  destruct (Nat.leb_spec (length (frame f)) k); [|lia]. f_equal. apply IH. lia.
Qed.
Lemma yields_all bl fs st buf is : Forall framed_ok fs -> decoded bl st fs is -> yields bl (Reader (flat_map frame fs) st buf) is.
Proof.
  intros H D. rewrite <- (firstn_all (flat_map frame fs)). apply yields_cut; [exact H|]. now rewrite complete_all.
Qed.

(* when the iterator stops *)
Lemma next_none bl rd rd' : next bl rd = (Ok None, rd') ->
  ~ at_event (rd_file rd) \/
  exists f tail, framed_ok f /\ rd_file rd = frame f ++ tail /\ parse_event bl (rd_parser rd) (fst f) (snd f) = Err (EIo UnexpectedEof).
Proof.
  intros H.
  assert (D : (N.of_nat (length (rd_file rd)) < 19) \/ exists h rest, header_ok h /\ rd_file rd = header_bytes h ++ rest).
  { destruct (N.lt_ge_cases (N.of_nat (length (rd_file rd))) 19) as [L|L]; [now left|right].
    destruct (header_of_bytes (firstn 19 (rd_file rd))) as (h & Hh & E); [rewrite firstn_length; lia|].
    exists h, (skipn 19 (rd_file rd)). split; [exact Hh|]. now rewrite E, firstn_skipn. }
  destruct D as [L|(h & rest & Hh & E)].
  - left. intros (f & tail & _ & E). rewrite E in L. unfold frame in L. rewrite !app_length, header_len in L. lia.
  - assert (K : (exists p tail, rest = p ++ tail /\ h_length h = 19 + N.of_nat (length p)) \/ h_length h < 19 \/ N.of_nat (length rest) + 19 < h_length h).
    { destruct (N.lt_ge_cases (h_length h) 19); [tauto|]. destruct (N.lt_ge_cases (N.of_nat (length rest) + 19) (h_length h)); [tauto|]. left.
      exists (firstn (N.to_nat (h_length h - 19)) rest), (skipn (N.to_nat (h_length h - 19)) rest). rewrite firstn_skipn, firstn_length. split; [reflexivity|lia]. }
    destruct K as [(p & tail & -> & Hl)|K].
    + right. exists (h, p), tail. assert (F : framed_ok (h, p)) by (split; assumption). split; [exact F|].
      assert (E2 : rd_file rd = frame (h, p) ++ tail) by (rewrite E; unfold frame; cbn [fst snd]; now rewrite app_assoc).
      split; [exact E2|]. destruct (next_frame bl rd (h, p) tail F E2) as [buf X]. rewrite X in H.
      destruct (parse_event _ _ _ _) as [[e st]|er| |]; try discriminate. destruct er as [[]| | | | | | |]; try discriminate. reflexivity.
    + left. intros ([h' p'] & tail & [Hh' Hl'] & E'). cbn [fst snd] in *. rewrite E in E'. unfold frame in E'. cbn [fst snd] in E'.
      rewrite <- app_assoc in E'. destruct (app_inj_len _ _ _ _ ltac:(rewrite !header_len; reflexivity) E') as [E1 ->].
      assert (h = h') as <-.
      { pose proof (header_exact h [] Hh) as X1. pose proof (header_exact h' [] Hh') as X2. rewrite app_nil_r in X1, X2. rewrite E1 in X1. congruence. }
      rewrite app_length in K. lia.
Qed.
