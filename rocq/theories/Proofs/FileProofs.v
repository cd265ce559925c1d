(* Files of any contents, files that are still being written, failing reads. *)
From Verif Require Import Base.Tac Base.Bytes Base.Text Base.Res Base.Str Base.Parse Model.Events Model.Reader Model.FileIo Spec.EventSpec Spec.ReaderSpec Spec.TransportSpec Spec.FileSpec
  Proofs.EventProofs Proofs.ReaderProofs.
Local Open Scope N_scope.

(* ---- any bytes ---- *)
Lemma split_bytes bs : (length bs < 19)%nat \/
  (exists h t, header_ok h /\ bs = header_bytes h ++ t /\ (h_length h < 19 \/ 19 + N.of_nat (length t) < h_length h)) \/
  (exists f t, framed_ok f /\ bs = frame f ++ t).
Proof.
  destruct (Nat.lt_ge_cases (length bs) 19) as [L|L]; [auto|right].
  destruct (header_of_bytes (firstn 19 bs)) as (h & Hh & E); [rewrite firstn_length; lia|].
  assert (B : bs = header_bytes h ++ skipn 19 bs) by now rewrite E, firstn_skipn. set (t := skipn 19 bs) in *.
  destruct (N.lt_ge_cases (h_length h) 19); [left; exists h, t; auto|]. destruct (N.lt_ge_cases (19 + N.of_nat (length t)) (h_length h)); [left; exists h, t; auto|].
  right. exists (h, firstn (N.to_nat (h_length h - 19)) t), (skipn (N.to_nat (h_length h - 19)) t). split.
  - split; [exact Hh|]. cbn [fst snd]. rewrite firstn_length. lia.
  - unfold frame. cbn [fst snd]. rewrite <- app_assoc, firstn_skipn. exact B.
Qed.
Lemma next_short bl bs st buf : (length bs < 19)%nat -> next bl (Reader bs st buf) = (Ok None, Reader [] st buf).
Proof. intros L. unfold next, read_event. cbn [rd_file rd_parser rd_buffer]. now rewrite read_exact_short by (unfold event_header_size; lia). Qed.
Lemma next_cut bl h t st buf : header_ok h -> 19 + N.of_nat (length t) < h_length h -> exists buf', next bl (Reader (header_bytes h ++ t) st buf) = (Ok None, Reader [] st buf').
Proof.
  intros Hh L. unfold next, read_event. cbn [rd_file rd_parser rd_buffer]. rewrite (read_exact_app (header_bytes h)) by (rewrite header_len; reflexivity).
  pose proof (header_exact h [] Hh) as E. rewrite app_nil_r in E. rewrite E. clear E.
  assert (Hu : h_length h < 4294967296) by (destruct Hh as (_ & _ & _ & U & _); exact U).
  unfold event_header_size. rewrite usub_ok by lia. rewrite read_exact_short by lia. destruct (_ <? _); [rewrite alloc_ok by (unfold isize_max; lia)|]; eauto.
Qed.
Lemma next_tiny bl h t st buf : header_ok h -> h_length h < 19 -> exists rd', next bl (Reader (header_bytes h ++ t) st buf) = (Panic, rd').
Proof.
  intros Hh L. unfold next, read_event. cbn [rd_file rd_parser rd_buffer]. rewrite (read_exact_app (header_bytes h)) by (rewrite header_len; reflexivity).
  pose proof (header_exact h [] Hh) as E. rewrite app_nil_r in E. rewrite E. clear E. unfold usub, event_header_size. destruct (N.leb_spec 19 (h_length h)); [lia|].
  destruct bl; [eauto|]. assert (M : 9223372036854775807 < (h_length h + u64max1 - 19) mod u64max1) by (rewrite N.mod_small; unfold u64max1; lia).
  destruct (N.ltb_spec payload_buffer_size ((h_length h + u64max1 - 19) mod u64max1)); [|unfold payload_buffer_size in *; lia].
  unfold alloc, isize_max. destruct (N.ltb_spec 9223372036854775807 ((h_length h + u64max1 - 19) mod u64max1)); [eauto|lia].
Qed.
Lemma swept_total bl : forall n bs, (length bs <= n)%nat -> forall st, exists is x, swept bl st bs is x.
Proof.
  induction n as [|n IH]; intros bs L st; (destruct (split_bytes bs) as [S|[(h & t & Hh & -> & [T|T])|(f & t & F & ->)]]; [exists [], (Ended []); now constructor|exists [], Panicked; now constructor|exists [], (Ended []); now constructor|]).
  - unfold frame in L. rewrite !app_length, header_len in L. lia.
  - assert (Lt : (length t <= n)%nat) by (unfold frame in L; rewrite !app_length, header_len in L; lia).
    destruct (parse_event bl st (fst f) (snd f)) as [[e st']|er| |] eqn:P.
    + destruct (IH t Lt st') as (is & x & S). eexists _, _. eapply sw_event; eassumption.
    + destruct (IH t Lt st) as (is & x & S).
      assert (D : er = EIo UnexpectedEof \/ er <> EIo UnexpectedEof) by (destruct er as [[]| | | | | | |]; auto; right; discriminate).
      destruct D as [->|D]; [eexists _, _; eapply sw_stop; eassumption|eexists _, _; eapply sw_error; eassumption].
    + eexists _, _. eapply sw_panic; eassumption.
    + eexists _, _. eapply sw_hang; eassumption.
Qed.
Lemma swept_iterates bl st bs is x : swept bl st bs is x -> forall buf, iterates bl (Reader bs st buf) is x.
Proof.
  induction 1 as [st bs L|st h t Hh L|st h t Hh L|st f t e st' is x F P S IH|st f t er is x F P D S IH|st f t F P|st f t F P|st f t F P]; intros buf.
  - exact (it_none bl _ _ (next_short bl bs st buf L)).
  - destruct (next_cut bl h t st buf Hh L) as [b E]. exact (it_none bl _ _ E).
  - destruct (next_tiny bl h t st buf Hh L) as [r E]. exact (it_panic bl _ _ E).
  - destruct (next_frame bl (Reader (frame f ++ t) st buf) f t F eq_refl) as [b E]. cbn [rd_parser] in E. rewrite P in E. eapply it_item; [exact E|apply IH].
  - destruct (next_frame bl (Reader (frame f ++ t) st buf) f t F eq_refl) as [b E]. cbn [rd_parser] in E. rewrite P in E.
    eapply it_item; [destruct er as [[]| | | | | | |]; try exact E; now elim D|apply IH].
  - destruct (next_frame bl (Reader (frame f ++ t) st buf) f t F eq_refl) as [b E]. cbn [rd_parser] in E. rewrite P in E. exact (it_none bl _ _ E).
  - destruct (next_frame bl (Reader (frame f ++ t) st buf) f t F eq_refl) as [b E]. cbn [rd_parser] in E. rewrite P in E. exact (it_panic bl _ _ E).
  - destruct (next_frame bl (Reader (frame f ++ t) st buf) f t F eq_refl) as [b E]. cbn [rd_parser] in E. rewrite P in E. exact (it_hang bl _ _ E).
Qed.
Lemma iterates_unique bl rd is x : iterates bl rd is x -> forall is' x', iterates bl rd is' x' -> is = is' /\ x = x'.
Proof.
  induction 1 as [rd rd' E|rd rd' E|rd rd' E|rd i rd' is x E I IH]; intros is2 x2 J; inversion J as [a b Q|a b Q|a b Q|a j b is3 x3 Q K]; subst; rewrite E in Q; inversion Q; subst; auto.
  destruct (IH _ _ K) as [-> ->]. auto.
Qed.

Lemma iterates_iff bl bs st buf is x : iterates bl (Reader bs st buf) is x <-> swept bl st bs is x.
Proof.
  split; [|intros S; now apply swept_iterates]. intros I. destruct (swept_total bl (length bs) bs (Nat.le_refl _) st) as (is' & x' & S).
  destruct (iterates_unique bl _ _ _ I _ _ (swept_iterates bl _ _ _ _ S buf)) as [-> ->]. exact S.
Qed.
Lemma over_total bl : forall fs st, exists is x, over bl st fs is x.
Proof.
  induction fs as [|f fs IH]; intros st; [exists [], (Ended []); constructor|]. destruct (parse_event bl st (fst f) (snd f)) as [[e st']|er| |] eqn:P.
  - destruct (IH st') as (is & x & O). eexists _, _. eapply ov_event; eassumption.
  - destruct (IH st) as (is & x & O).
    assert (D : er = EIo UnexpectedEof \/ er <> EIo UnexpectedEof) by (destruct er as [[]| | | | | | |]; auto; right; discriminate).
    destruct D as [->|D]; [eexists _, _; eapply ov_stop; eassumption|eexists _, _; eapply ov_error; eassumption].
  - eexists _, _. eapply ov_panic; eassumption.
  - eexists _, _. eapply ov_hang; eassumption.
Qed.
Lemma over_swept bl st fs is x : over bl st fs is x -> Forall framed_ok fs -> swept bl st (flat_map frame fs) is x.
Proof.
  induction 1 as [st|st f fs e st' is x P O IH|st f fs er is x P D O IH|st f fs P|st f fs P|st f fs P]; intros K; [|inversion K as [|u v K1 K2]; subst; cbn [flat_map]..].
  - apply sw_short. cbn. lia.
  - eapply sw_event; eauto.
  - eapply sw_error; eauto.
  - now apply sw_stop.
  - now apply sw_panic.
  - now apply sw_hang.
Qed.
Lemma over_cut bl fs : Forall framed_ok fs -> forall k st is x, over bl st (complete k fs) is x -> exists y, swept bl st (firstn k (flat_map frame fs)) is y /\ alike x y.
Proof.
  induction 1 as [|f fs F Fs IH]; intros k st is x O; cbn [complete flat_map] in *.
  - inversion O; subst. exists (Ended []). rewrite firstn_nil. split; [apply sw_short; cbn; lia|exact I].
  - destruct (Nat.leb_spec (length (frame f)) k) as [L|L].
    + rewrite firstn_app, firstn_all2 by exact L. set (r := firstn (k - length (frame f)) (flat_map frame fs)) in *.
      inversion O as [a|a g gs e st' is' x' P O'|a g gs er is' x' P D O'|a g gs P|a g gs P|a g gs P]; subst.
      * destruct (IH _ _ _ _ O') as (y & S & A). exists y. split; [eapply sw_event; eassumption|exact A].
      * destruct (IH _ _ _ _ O') as (y & S & A). exists y. split; [eapply sw_error; eassumption|exact A].
      * exists (Ended r). split; [now apply sw_stop|exact I].
      * exists Panicked. split; [now apply sw_panic|exact I].
      * exists Hung. split; [now apply sw_hang|exact I].
    + inversion O; subst. exists (Ended []). split; [|exact I]. rewrite firstn_app. replace (k - length (frame f))%nat with 0%nat by lia. cbn [firstn]. rewrite app_nil_r.
      destruct f as [h p]. destruct F as [Hh Hl]. unfold frame in *. cbn [fst snd] in *. rewrite app_length, header_len in L. destruct (Nat.lt_ge_cases k 19) as [Q|Q].
      * apply sw_short. rewrite firstn_length. lia.
      * rewrite firstn_app, header_len, firstn_all2 by (rewrite header_len; lia). apply sw_cut; [exact Hh|]. rewrite firstn_length. lia.
Qed.

(* ---- what reads see ---- *)
Inductive stops : list seen -> error -> list seen -> Prop :=
| st_over : stops [] (EIo UnexpectedEof) []
| st_end t : stops (AtEnd :: t) (EIo UnexpectedEof) t
| st_fault t : stops (AtFault :: t) (EIo OtherIo) t.
Lemma sees_gave b bs rs : sees (Gave (b :: bs) :: rs) = map Byte (b :: bs) ++ sees rs. Proof. reflexivity. Qed.
Lemma map_byte_split a : forall b x t, map Byte a ++ b = map Byte x ++ t -> (length a <= length x)%nat -> exists y, x = a ++ y /\ b = map Byte y ++ t.
Proof.
  induction a as [|c a IH]; intros b x t E L; [exists x; auto|]. destruct x as [|d x]; cbn [length] in L; [lia|]. cbn [map app] in E. injection E as -> E.
  destruct (IH b x t E ltac:(lia)) as (y & -> & B). exists y. auto.
Qed.
Lemma file_exact_ok rs : forall n acc x t, sees rs = map Byte x ++ t -> length x = n -> exists rs', file_exact n rs acc = (Ok (acc ++ x), rs') /\ sees rs' = t.
Proof.
  induction rs as [|a rs IH]; intros n acc x t HS L.
  - destruct x as [|b x]; [|discriminate]. cbn [length] in L. subst n. exists []. cbn [file_exact map app] in *. rewrite app_nil_r. auto.
  - destruct x as [|b x]; [cbn [length] in L; subst n; exists (a :: rs); cbn [file_exact]; rewrite app_nil_r; auto|]. destruct n as [|n]; [discriminate|].
    destruct a as [[|c bs]| |]; try discriminate.
    + rewrite sees_gave in HS. cbn [file_exact]. destruct (Nat.leb_spec (length (c :: bs)) (S n)) as [Q|Q].
      * destruct (map_byte_split _ _ _ _ HS) as (y & E & S2); [rewrite L; exact Q|]. rewrite E in L |- *. rewrite app_length in L.
        destruct (IH (S n - length (c :: bs))%nat (acc ++ c :: bs) y t S2) as (rs' & F & G); [lia|]. exists rs'. rewrite F, <- app_assoc. auto.
      * symmetry in HS. destruct (map_byte_split _ _ _ _ HS) as (y & E & S2); [lia|].
        assert (FE : firstn (S n) (c :: bs) = b :: x) by (rewrite E, firstn_app, <- L, Nat.sub_diag, firstn_all; cbn [firstn]; apply app_nil_r).
        assert (SE : skipn (S n) (c :: bs) = y) by (rewrite E, skipn_app, <- L, Nat.sub_diag, skipn_all; reflexivity).
        rewrite FE, SE. eexists. split; [reflexivity|]. destruct y as [|d y]; [rewrite app_nil_r in E; rewrite E in Q; lia|]. now rewrite sees_gave, S2.
    + cbn [file_exact]. apply IH; [exact HS|exact L].
Qed.
Lemma file_exact_stops rs : forall n acc x t er t', sees rs = map Byte x ++ t -> (length x < n)%nat -> stops t er t' -> exists rs', file_exact n rs acc = (Err er, rs') /\ sees rs' = t'.
Proof.
  induction rs as [|a rs IH]; intros n acc x t er t' HS L T; (destruct n as [|n]; [lia|]).
  - destruct x; [|discriminate]. cbn [map app sees flat_map] in HS. subst t. inversion T; subst. exists []. auto.
  - destruct a as [[|c bs]| |].
    + destruct x; [|discriminate]. cbn [map app] in HS. unfold sees in HS. cbn [flat_map app] in HS. fold (sees rs) in HS. subst t. inversion T; subst. exists rs. auto.
    + rewrite sees_gave in HS. cbn [file_exact].
      assert (Q : (length (c :: bs) <= length x)%nat).
      { destruct (Nat.le_gt_cases (length (c :: bs)) (length x)) as [|G]; [assumption|]. symmetry in HS. destruct (map_byte_split _ _ _ _ HS) as (y & E & S2); [lia|].
        destruct y as [|d y]; [rewrite app_nil_r in E; rewrite E in G; lia|]. cbn [map app] in S2. subst t. inversion T. }
      destruct (map_byte_split _ _ _ _ HS Q) as (y & E & S2). rewrite E, app_length in L. destruct (Nat.leb_spec (length (c :: bs)) (Datatypes.S n)) as [|G]; [|lia].
      eapply IH; [exact S2| |exact T]. lia.
    + cbn [file_exact]. eapply IH; [exact HS|exact L|exact T].
    + destruct x; [|discriminate]. unfold sees in HS. cbn [map flat_map app] in HS. fold (sees rs) in HS. subst t. inversion T; subst. exists rs. auto.
Qed.

Lemma fread_event_frame bl rd f t : framed_ok f -> sees (fr_file rd) = map Byte (frame f) ++ t ->
  exists rs buf, sees rs = t /\ fread_event bl rd = fwith_event (fst f) (parse_event bl (fr_parser rd) (fst f) (snd f)) (FReader rs (fr_parser rd) buf).
Proof.
  destruct f as [h p]. intros [Hh Hl] S. cbn [fst snd] in *. unfold fread_event. unfold frame in S. cbn [fst snd] in S. rewrite map_app, <- app_assoc in S.
  destruct (file_exact_ok _ (N.to_nat event_header_size) [] _ _ S) as (rs1 & E1 & S1); [rewrite header_len; reflexivity|]. rewrite E1. cbn [app].
  pose proof (header_exact h [] Hh) as E. rewrite app_nil_r in E. rewrite E. clear E.
  assert (Hu : h_length h < 4294967296) by (destruct Hh as (_ & _ & _ & U & _); exact U).
  unfold event_header_size. rewrite usub_ok by lia. replace (h_length h - 19) with (N.of_nat (length p)) by lia. rewrite Nat2N.id.
  destruct (file_exact_ok _ (length p) [] _ _ S1 eq_refl) as (rs2 & E2 & S2). rewrite E2. cbn [app]. exists rs2. destruct (_ <? _).
  - rewrite alloc_ok by (unfold isize_max; lia). eauto.
  - eexists. split; [exact S2|]. rewrite firstn_app, Nat.sub_diag, firstn_all. cbn [firstn]. rewrite app_nil_r. reflexivity.
Qed.
Lemma fnext_frame bl rd f t : framed_ok f -> sees (fr_file rd) = map Byte (frame f) ++ t ->
  exists rs buf, sees rs = t /\ fnext bl rd =
    match parse_event bl (fr_parser rd) (fst f) (snd f) with
    | Ok (e, st) => (Ok (Some (inl (fst f, e))), FReader rs st buf)
    | Err (EIo UnexpectedEof) => (Ok None, FReader rs (fr_parser rd) buf)
    | Err er => (Ok (Some (inr er)), FReader rs (fr_parser rd) buf)
    | Panic => (Panic, FReader rs (fr_parser rd) buf)
    | Diverge => (Diverge, FReader rs (fr_parser rd) buf)
    end.
Proof.
  intros H1 H2. destruct (fread_event_frame bl rd f t H1 H2) as (rs & buf & S & E). exists rs, buf. split; [exact S|]. unfold fnext. rewrite E. unfold fwith_event. cbn [fr_file fr_buffer].
  destruct (parse_event _ _ _ _) as [[e st]|er| |]; reflexivity.
Qed.
Definition stopped (er : error) : option item := match er with EIo UnexpectedEof => None | _ => Some (inr er) end.
Lemma fnext_cut bl rd f k t er t' : framed_ok f -> (k < length (frame f))%nat -> sees (fr_file rd) = map Byte (firstn k (frame f)) ++ t -> stops t er t' ->
  exists rs, sees rs = t' /\ fnext bl rd = (Ok (stopped er), FReader rs (fr_parser rd) (fr_buffer rd)).
Proof.
  destruct f as [h p]. intros [Hh Hl] Hk S T. unfold frame in *. cbn [fst snd] in *. unfold fnext, fread_event. rewrite app_length, header_len in Hk.
  destruct (Nat.lt_ge_cases k 19) as [L|L].
  - destruct (file_exact_stops _ (N.to_nat event_header_size) [] _ _ er t' S) as (rs & E & S'); [rewrite firstn_length, app_length, header_len; change (N.to_nat event_header_size) with 19%nat; lia|exact T|].
    rewrite E. exists rs. split; [exact S'|]. inversion T; reflexivity.
  - rewrite firstn_app, header_len, firstn_all2, map_app, <- app_assoc in S by (rewrite header_len; lia).
    destruct (file_exact_ok _ (N.to_nat event_header_size) [] _ _ S) as (rs1 & E1 & S1); [rewrite header_len; reflexivity|]. rewrite E1. cbn [app].
    pose proof (header_exact h [] Hh) as E. rewrite app_nil_r in E. rewrite E. clear E.
    assert (Hu : h_length h < 4294967296) by (destruct Hh as (_ & _ & _ & U & _); exact U).
    unfold event_header_size. rewrite usub_ok by lia. replace (h_length h - 19) with (N.of_nat (length p)) by lia. rewrite Nat2N.id.
    destruct (file_exact_stops _ (length p) [] _ _ er t' S1) as (rs & E & S'); [rewrite firstn_length; lia|exact T|].
    rewrite E. exists rs. split; [exact S'|]. destruct (_ <? _); [rewrite alloc_ok by (unfold isize_max; lia)|]; inversion T; reflexivity.
Qed.

(* ---- no end and no error in between: as Model/Reader on the bytes ---- *)
Definition fsim (a : freader) (b : reader) : Prop := sees (fr_file a) = map Byte (rd_file b) /\ fr_parser a = rd_parser b /\ fr_buffer a = rd_buffer b.
Lemma file_exact_sim n rs bs : sees rs = map Byte bs -> exists r x y, file_exact (N.to_nat n) rs [] = (r, x) /\ read_exact n bs = (r, y) /\ sees x = map Byte y.
Proof.
  intros S. unfold read_exact. destruct (N.ltb_spec (N.of_nat (length bs)) n) as [L|L].
  - destruct (file_exact_stops rs (N.to_nat n) [] bs [] (EIo UnexpectedEof) []) as (x & E & S2); [now rewrite app_nil_r|lia|exact st_over|]. rewrite E. eauto 8.
  - rewrite <- (firstn_skipn (N.to_nat n) bs), map_app in S. destruct (file_exact_ok rs (N.to_nat n) [] _ _ S) as (x & E & S2); [rewrite firstn_length; lia|]. rewrite E. cbn [app]. eauto 8.
Qed.
Lemma fnext_sim bl a b : fsim a b -> fst (fnext bl a) = fst (next bl b) /\ fsim (snd (fnext bl a)) (snd (next bl b)).
Proof.
  destruct a as [rs st buf], b as [bs st' buf']. intros (S & P & B). cbn [fr_file rd_file fr_parser rd_parser fr_buffer rd_buffer] in *. subst st' buf'.
  assert (X : fst (fread_event bl (FReader rs st buf)) = fst (read_event bl (Reader bs st buf)) /\ fsim (snd (fread_event bl (FReader rs st buf))) (snd (read_event bl (Reader bs st buf)))).
  { unfold fread_event, read_event. cbn [fr_file rd_file fr_parser rd_parser fr_buffer rd_buffer].
    destruct (file_exact_sim event_header_size _ _ S) as (r & x & y & E1 & E2 & S1). rewrite E1, E2. clear E1 E2.
    destruct r as [hb|e| |]; try (unfold fsim; cbn [fst snd fr_file rd_file fr_parser rd_parser fr_buffer rd_buffer]; auto; fail).
    destruct (parse_header hb) as [h|e| |]; try (unfold fsim; cbn [fst snd fr_file rd_file fr_parser rd_parser fr_buffer rd_buffer]; auto; fail).
    destruct (usub u64max1 bl (h_length h) event_header_size) as [n|e| |]; try (unfold fsim; cbn [fst snd fr_file rd_file fr_parser rd_parser fr_buffer rd_buffer]; auto; fail).
    destruct (file_exact_sim n _ _ S1) as (r & x2 & y2 & E1 & E2 & S2). rewrite E1, E2. clear E1 E2.
    destruct (payload_buffer_size <? n).
    - destruct (alloc n) as [u|e| |]; try (unfold fsim; cbn [fst snd fr_file rd_file fr_parser rd_parser fr_buffer rd_buffer]; auto; fail).
      destruct r as [v|e| |]; try (unfold fsim; cbn [fst snd fr_file rd_file fr_parser rd_parser fr_buffer rd_buffer]; auto; fail).
      unfold fwith_event, with_event. destruct (parse_event bl st h v) as [[e st']|e| |]; unfold fsim; cbn [fst snd fr_file rd_file fr_parser rd_parser fr_buffer rd_buffer]; auto.
    - destruct r as [v|e| |]; try (unfold fsim; cbn [fst snd fr_file rd_file fr_parser rd_parser fr_buffer rd_buffer]; auto; fail).
      unfold fwith_event, with_event. destruct (parse_event bl st h _) as [[e st']|e| |]; unfold fsim; cbn [fst snd fr_file rd_file fr_parser rd_parser fr_buffer rd_buffer]; auto. }
  unfold fnext, next. destruct (fread_event bl _) as [r1 a'], (read_event bl _) as [r2 b']. cbn [fst snd] in X. destruct X as [<- X].
  destruct r1 as [v|[[]| | | | | | |]| |]; cbn [fst snd]; auto.
Qed.
Lemma fcalls_sim bl n : forall a b, fsim a b -> calls (fnext bl) n a = calls (next bl) n b.
Proof.
  induction n as [|n IH]; intros a b S; cbn [calls]; [reflexivity|]. destruct (fnext_sim bl a b S) as [H1 H2].
  destruct (fnext bl a) as [r1 a'], (next bl b) as [r2 b']. cbn [fst snd] in *. subst r2. f_equal. now apply IH.
Qed.

(* ---- ends and errors between events ---- *)
Lemma follow bl st ts os st2 : follows bl st ts os st2 -> Forall turn_ok ts -> forall rs buf t, sees rs = flat_map turn_seen ts ++ t ->
  exists rs2 buf2, fcalls bl (FReader rs st buf) os (FReader rs2 st2 buf2) /\ sees rs2 = t.
Proof.
  induction 1 as [st|st f e st' ts os st2 P F IH|st f er ts os st2 P D F IH|st f ts os st2 P F IH|st ts os st2 F IH|st ts os st2 F IH]; intros K rs buf t S;
    [|inversion K as [|u v K1 K2]; subst; cbn [flat_map turn_seen turn_ok] in *; rewrite <- app_assoc in S..].
  - exists rs, buf. split; [constructor|exact S].
  - destruct (fnext_frame bl (FReader rs st buf) f _ K1 S) as (rs1 & b1 & S1 & E). cbn [fr_parser] in E. rewrite P in E. destruct (IH K2 rs1 b1 t S1) as (rs2 & b2 & C & S2).
    exists rs2, b2. split; [eapply fc_call; eassumption|exact S2].
  - destruct (fnext_frame bl (FReader rs st buf) f _ K1 S) as (rs1 & b1 & S1 & E). cbn [fr_parser] in E. rewrite P in E. destruct (IH K2 rs1 b1 t S1) as (rs2 & b2 & C & S2).
    exists rs2, b2. split; [eapply fc_call; [|eassumption]; destruct er as [[]| | | | | | |]; try exact E; now elim D|exact S2].
  - destruct (fnext_frame bl (FReader rs st buf) f _ K1 S) as (rs1 & b1 & S1 & E). cbn [fr_parser] in E. rewrite P in E. destruct (IH K2 rs1 b1 t S1) as (rs2 & b2 & C & S2).
    exists rs2, b2. split; [eapply fc_call; eassumption|exact S2].
  - cbn [app] in S. destruct (file_exact_stops rs (N.to_nat event_header_size) [] [] _ (EIo UnexpectedEof) (flat_map turn_seen ts ++ t) S) as (rs1 & E & S1); [change (N.to_nat event_header_size) with 19%nat; cbn; lia|exact (st_end _)|].
    destruct (IH K2 rs1 buf t S1) as (rs2 & b2 & C & S2). exists rs2, b2. split; [|exact S2]. eapply fc_call; [|exact C]. unfold fnext, fread_event. cbn [fr_file fr_parser fr_buffer]. now rewrite E.
  - cbn [app] in S. destruct (file_exact_stops rs (N.to_nat event_header_size) [] [] _ (EIo OtherIo) (flat_map turn_seen ts ++ t) S) as (rs1 & E & S1); [change (N.to_nat event_header_size) with 19%nat; cbn; lia|exact (st_fault _)|].
    destruct (IH K2 rs1 buf t S1) as (rs2 & b2 & C & S2). exists rs2, b2. split; [|exact S2]. eapply fc_call; [|exact C]. unfold fnext, fread_event. cbn [fr_file fr_parser fr_buffer]. now rewrite E.
Qed.
