(* How bytes are grouped on the way does not matter (C86); time-outs inside packets (C58); files and connections (C87). *)
From Coq Require Import Strings.String.
From Verif Require Import Base.Tac Base.Bytes Base.Text Base.Res Base.Str Base.Parse Model.Gtid Model.GtidMaria Model.Events Model.Reader Model.Responses Model.Channel Model.Client
  Model.Commands Model.Session Spec.EventSpec Spec.ReaderSpec Spec.ChannelSpec Spec.TransportSpec Proofs.EventProofs Proofs.ReaderProofs Proofs.ChannelProofs Proofs.PlanProofs.
Local Open Scope N_scope.

(* read_exact on what arrives *)
Fixpoint taking (n : nat) (l : list arrival) : res (list byte) * list arrival :=
  match n with
  | O => (Ok [], l)
  | S n' =>
    match l with
    | [] => (Err (EIo UnexpectedEof), [])
    | Late :: r => (Err (EIo TimedOut), r)
    | Lost :: r => (Err (EIo OtherIo), r)
    | Arrived b :: r => let (x, r') := taking n' r in (let? bs := x in Ok (b :: bs), r')
    end
  end.
Lemma taking_app bs : forall n l, (length bs <= n)%nat -> taking n (map Arrived bs ++ l) = (let (x, r) := taking (n - length bs) l in (let? ys := x in Ok (bs ++ ys), r)).
Proof.
  induction bs as [|b bs IH]; intros n l H; cbn [map app length].
  - rewrite Nat.sub_0_r. destruct (taking n l) as [[ys|e| |] r]; reflexivity.
  - cbn [length] in H. destruct n as [|n]; [lia|]. cbn [taking Nat.sub]. rewrite IH by lia. destruct (taking (n - length bs) l) as [[ys|e| |] r]; reflexivity.
Qed.
Lemma taking_part bs : forall n l, (n <= length bs)%nat -> taking n (map Arrived bs ++ l) = (Ok (firstn n bs), map Arrived (skipn n bs) ++ l).
Proof.
  induction bs as [|b bs IH]; intros n l H; cbn [length] in H.
  - assert (n = 0%nat) as -> by lia. reflexivity.
  - destruct n as [|n]; [reflexivity|]. cbn [map app taking firstn skipn]. rewrite IH by lia. reflexivity.
Qed.
Lemma recv_taking cs : forall n acc r cs', recv_exact n cs acc = (r, cs') -> exists x, taking n (arrivals cs) = (x, arrivals cs') /\ r = (let? ys := x in Ok (acc ++ ys)).
Proof.
  induction cs as [|[bs| |] cs IH]; intros n acc r cs' E; (destruct n as [|n]; [cbn [recv_exact] in E; injection E as <- <-; exists (Ok []); split; [reflexivity|]; cbn [rbind]; now rewrite app_nil_r|]);
    cbn [recv_exact] in E.
  - injection E as <- <-. exists (Err (EIo UnexpectedEof)). auto.
  - unfold arrivals. cbn [flat_map]. fold (arrivals cs). destruct (Nat.leb_spec (length bs) (S n)) as [Q|Q].
    + destruct (IH _ _ _ _ E) as (x & T & ->). rewrite taking_app by exact Q. rewrite T. eexists. split; [reflexivity|]. destruct x; cbn [rbind]; try reflexivity. now rewrite app_assoc.
    + rewrite taking_part by lia. assert (Er : r = Ok (acc ++ firstn (S n) bs)) by congruence. assert (Ec : cs' = Got (skipn (S n) bs) :: cs) by congruence. subst r cs'.
      eexists. split; [reflexivity|]. reflexivity.
  - injection E as <- <-. exists (Err (EIo TimedOut)). auto.
  - injection E as <- <-. exists (Err (EIo OtherIo)). auto.
Qed.
Lemma recv_same n cs1 cs2 acc : arrivals cs1 = arrivals cs2 ->
  fst (recv_exact n cs1 acc) = fst (recv_exact n cs2 acc) /\ arrivals (snd (recv_exact n cs1 acc)) = arrivals (snd (recv_exact n cs2 acc)).
Proof.
  intros H. destruct (recv_exact n cs1 acc) as [r1 c1] eqn:E1, (recv_exact n cs2 acc) as [r2 c2] eqn:E2. cbn [fst snd].
  destruct (recv_taking _ _ _ _ _ E1) as (x1 & T1 & ->), (recv_taking _ _ _ _ _ E2) as (x2 & T2 & ->). rewrite H in T1. rewrite T1 in T2. injection T2 as -> ->. auto.
Qed.
Lemma packet_same cs1 cs2 : arrivals cs1 = arrivals cs2 ->
  fst (read_packet cs1) = fst (read_packet cs2) /\ arrivals (snd (read_packet cs1)) = arrivals (snd (read_packet cs2)).
Proof.
  intros H. unfold read_packet. destruct (recv_same 4 _ _ [] H) as [H1 H2]. destruct (recv_exact 4 cs1 []) as [r1 c1], (recv_exact 4 cs2 []) as [r2 c2].
  cbn [fst snd] in *. subst r2. destruct r1 as [h|e| |]; cbn [fst snd]; auto.
  destruct (recv_same (N.to_nat (le_dec (firstn 3 h))) _ _ [] H2) as [H3 H4]. destruct (recv_exact _ c1 []) as [r1 d1], (recv_exact _ c2 []) as [r2 d2].
  cbn [fst snd] in *. subst r2. destruct r1; cbn [fst snd]; auto.
Qed.

(* the event stream *)
Definition ssim (a b : stream) : Prop := arrivals (sm_in a) = arrivals (sm_in b) /\ sm_parser a = sm_parser b.
Lemma stream_same bl a b : ssim a b -> fst (stream_next bl a) = fst (stream_next bl b) /\ ssim (snd (stream_next bl a)) (snd (stream_next bl b)).
Proof.
  intros [H P]. unfold stream_next. destruct (packet_same _ _ H) as [H1 H2]. rewrite P. destruct (read_packet (sm_in a)) as [r1 c1], (read_packet (sm_in b)) as [r2 c2].
  cbn [fst snd] in *. subst r2. destruct r1 as [[p q]|e| |]; try (cbn [fst snd]; unfold ssim; cbn [sm_in sm_parser]; auto; fail).
  destruct (byte_at p 0) as [x|e| |]; try (cbn [fst snd]; unfold ssim; cbn [sm_in sm_parser]; auto; fail).
  destruct (x =? resp_ok).
  - destruct (stream_event bl (sm_parser b) p) as [[[h e] st]|e| |]; cbn [fst snd]; unfold ssim; cbn [sm_in sm_parser]; auto.
  - destruct (x =? resp_error); [cbn [fst snd]; unfold ssim; cbn [sm_in sm_parser]; auto|]. destruct (x =? resp_eof); cbn [fst snd]; unfold ssim; cbn [sm_in sm_parser]; auto.
Qed.
Lemma calls_same {S I} (R : S -> S -> Prop) (step : S -> res (option I) * S) : (forall a b, R a b -> fst (step a) = fst (step b) /\ R (snd (step a)) (snd (step b))) ->
  forall n a b, R a b -> calls step n a = calls step n b.
Proof.
  intros H n. induction n as [|n IH]; intros a b Hr; cbn [calls]; [reflexivity|]. destruct (H a b Hr) as [H1 H2].
  destruct (step a) as [r1 a'], (step b) as [r2 b']. cbn [fst snd] in *. subst r2. f_equal. now apply IH.
Qed.

(* the set-up *)
Definition wsim (a b : world) : Prop := w_client a = w_client b /\ arrivals (w_in a) = arrivals (w_in b) /\ w_log a = w_log b.
Definition asim {A} (p q : act A) : Prop := forall a b, wsim a b -> fst (p a) = fst (q b) /\ wsim (snd (p a)) (snd (q b)).
Lemma asim_bind {A B} (p q : act A) (f g : A -> act B) : asim p q -> (forall a, asim (f a) (g a)) -> asim (abind p f) (abind q g).
Proof.
  intros H K a b S. unfold abind. destruct (H a b S) as [H1 H2]. destruct (p a) as [r1 a'], (q b) as [r2 b']. cbn [fst snd] in *. subst r2.
  destruct r1; cbn [fst snd]; auto. now apply K.
Qed.
Lemma asim_ret {A} (x : A) : asim (aret x) (aret x).
Proof. intros a b S. auto. Qed.
Lemma asim_lift {A} (x : res A) : asim (alift x) (alift x).
Proof. intros a b S. auto. Qed.
Lemma asim_write p s : asim (a_write p s) (a_write p s).
Proof. intros a b (S1 & S2 & S3). unfold a_write. destruct (_ <=? _); cbn [fst snd]; unfold wsim; cbn [w_client w_in w_log]; rewrite ?S3; auto. Qed.
Lemma asim_read : asim a_read a_read.
Proof.
  intros a b (S1 & S2 & S3). unfold a_read. destruct (packet_same _ _ S2) as [H1 H2]. destruct (read_packet (w_in a)) as [r1 c1], (read_packet (w_in b)) as [r2 c2].
  cbn [fst snd] in *. subst r2. destruct r1 as [[p s]|e| |]; cbn [fst snd]; unfold wsim; cbn [w_client w_in w_log]; rewrite ?S3; auto.
Qed.
Lemma asim_client : asim a_client a_client.
Proof. intros a b S. destruct S as (S1 & S2 & S3). unfold a_client. cbn [fst snd]. rewrite S1. unfold wsim. auto. Qed.
Lemma asim_set c : asim (a_set_client c) (a_set_client c).
Proof. intros a b (S1 & S2 & S3). unfold a_set_client. cbn [fst snd]. unfold wsim. cbn [w_client w_in w_log]. auto. Qed.
Ltac sim := repeat match goal with
  | |- asim (aret _) _ => apply asim_ret
  | |- asim a_read _ => apply asim_read
  | |- asim (a_write _ _) _ => apply asim_write
  | |- asim a_client _ => apply asim_client
  | |- asim (a_set_client _) _ => apply asim_set
  | |- asim (alift _) _ => apply asim_lift
  | |- asim (abind _ _) _ => apply asim_bind; [|intros ?]
  | |- asim (if ?c then _ else _) _ => destruct c
  | |- asim (match ?c with _ => _ end) _ => destruct c
  end.
Lemma sim_sha bl ev st p sc seq ssl : asim (authenticate_sha_256 bl ev st p sc seq ssl) (authenticate_sha_256 bl ev st p sc seq ssl).
Proof. unfold authenticate_sha_256. cbv zeta. sim. Qed.
Lemma sim_switch bl ev st sw seq ssl : asim (handle_switch bl ev st sw seq ssl) (handle_switch bl ev st sw seq ssl).
Proof. unfold handle_switch. sim. apply sim_sha. Qed.
Lemma sim_connect bl ev st : asim (connect bl ev st) (connect bl ev st).
Proof. unfold connect, authenticate. sim; first [apply sim_switch | apply sim_sha]. Qed.
Lemma sim_skip f : forall f' a b, wsim a b -> (weight (w_in a) < f)%nat -> (weight (w_in b) < f')%nat ->
  fst (skip_columns f a) = fst (skip_columns f' b) /\ wsim (snd (skip_columns f a)) (snd (skip_columns f' b)).
Proof.
  induction f as [|f IH]; intros f' a b S W1 W2; [lia|]. destruct f' as [|f']; [lia|]. cbn [skip_columns]. unfold abind at 1 3 5 7.
  destruct (asim_read a b S) as [R1 R2]. destruct (a_read a) as [r1 a'] eqn:E1, (a_read b) as [r2 b'] eqn:E2. cbn [fst snd] in R1, R2. subst r2.
  apply a_read_weight in E1, E2. destruct E1 as (_ & _ & E1), E2 as (_ & _ & E2). destruct r1 as [p|e| |]; cbn [fst snd]; auto.
  specialize (E1 p eq_refl). specialize (E2 p eq_refl). unfold abind, alift. destruct (byte_at (fst p) 0) as [x|e| |]; cbn [fst snd]; auto.
  destruct (x =? resp_eof); [cbn [fst snd aret]; auto|]. apply IH; [exact R2|lia|lia].
Qed.
Lemma sim_rows f : forall f' acc a b, wsim a b -> (weight (w_in a) < f)%nat -> (weight (w_in b) < f')%nat ->
  fst (read_rows f acc a) = fst (read_rows f' acc b) /\ wsim (snd (read_rows f acc a)) (snd (read_rows f' acc b)).
Proof.
  induction f as [|f IH]; intros f' acc a b S W1 W2; [lia|]. destruct f' as [|f']; [lia|]. cbn [read_rows]. unfold abind at 1 5 9 13.
  destruct (asim_read a b S) as [R1 R2]. destruct (a_read a) as [r1 a'] eqn:E1, (a_read b) as [r2 b'] eqn:E2. cbn [fst snd] in R1, R2. subst r2.
  apply a_read_weight in E1, E2. destruct E1 as (_ & _ & E1), E2 as (_ & _ & E2). destruct r1 as [p|e| |]; cbn [fst snd]; auto.
  specialize (E1 p eq_refl). specialize (E2 p eq_refl). unfold abind, alift. destruct (check_error_packet (fst p) _) as [u|e| |]; cbn [fst snd]; auto.
  destruct (byte_at (fst p) 0) as [x|e| |]; cbn [fst snd]; auto.
  destruct (x =? resp_eof); [cbn [fst snd aret]; auto|]. destruct (parse_row_packet (fst p)) as [row|e| |]; cbn [fst snd]; auto. apply IH; [exact R2|lia|lia].
Qed.
Lemma sim_result_set : asim read_result_set read_result_set.
Proof.
  unfold read_result_set. apply asim_bind; [sim|]. intros r. apply asim_bind; [sim|]. intros u. apply asim_bind.
  - intros a b S. apply sim_skip; [exact S|apply in_size_enough..].
  - intros u2 a b S. apply sim_rows; [exact S|apply in_size_enough..].
Qed.
Lemma sim_statement s m : asim (statement s m) (statement s m).
Proof. unfold statement. sim. Qed.
Lemma sim_replicate bl ev st : asim (replicate bl ev st) (replicate bl ev st).
Proof.
  unfold replicate. cbv zeta. apply asim_bind; [apply sim_connect|]. intros pr. apply asim_bind; [sim|]. intros c. apply asim_bind; [sim|]. intros _.
  apply asim_bind; [|intros _].
  { unfold adjust_starting_position. sim. apply sim_result_set. }
  apply asim_bind; [unfold set_master_heartbeat; apply sim_statement|]. intros _. apply asim_bind; [|intros ck].
  { unfold set_master_binlog_checksum. sim; [apply sim_statement|apply sim_result_set]. }
  apply asim_bind; [|intros _; sim]. destruct pr.
  - unfold replicate_mariadb, register_gtid_slave. cbv zeta. sim; apply sim_statement.
  - unfold replicate_mysql. cbv zeta. sim.
Qed.

(* a time-out after k bytes of a packet *)
Lemma arrivals_app a b : arrivals (a ++ b) = arrivals a ++ arrivals b.
Proof. apply flat_map_app. Qed.
Lemma arrivals_flowing c : flowing c -> arrivals c = map Arrived (in_bytes c).
Proof.
  induction c as [|[bs| |] c IH]; intros F; [reflexivity| |inversion F as [|? ? [H _] _]; now destruct H|inversion F as [|? ? [_ H] _]; now destruct H]. inversion F; subst.
  unfold arrivals, in_bytes. cbn [flat_map]. fold (arrivals c). fold (in_bytes c). rewrite map_app. now rewrite IH.
Qed.
Lemma recv_exact_trouble c x e rest : trouble x = Some e -> forall n acc, flowing c -> (length (in_bytes c) < n)%nat -> recv_exact n (c ++ x :: rest) acc = (Err (EIo e), rest).
Proof.
  intros X.
  induction c as [|[bs| |] c IH]; intros n acc F L.
  - destruct n; [cbn in L; lia|]. destruct x; try discriminate X; injection X as <-; reflexivity.
  - destruct n; [lia|]. inversion F; subst. cbn [in_bytes flat_map] in L. rewrite app_length in L. fold (in_bytes c) in L. cbn [app recv_exact].
    destruct (Nat.leb_spec (length bs) (S n)); [|lia]. apply IH; [assumption|]. lia.
  - inversion F as [|? ? [H _] _]; now destruct H.
  - inversion F as [|? ? [_ H] _]; now destruct H.
Qed.
Lemma packet_trouble x e p k a rest : trouble x = Some e -> packet_ok p -> (k < length (wire p))%nat -> flowing a -> in_bytes a = firstn k (wire p) ->
  read_packet (a ++ x :: rest) = (Err (EIo e), rest).
Proof.
  intros X [P1 P2] L F B. unfold read_packet. destruct (Nat.lt_ge_cases k 4) as [K|K].
  - rewrite (recv_exact_trouble _ x e _ X); [reflexivity|exact F|]. rewrite B, firstn_length. lia.
  - unfold wire in L, B. set (hd := le_enc 3 (N.of_nat (length (fst p)))) in *. assert (HL : length hd = 3%nat) by apply le_enc_length.
    rewrite app_assoc in L, B. assert (HL2 : length (hd ++ [n2b (snd p)]) = 4%nat) by (rewrite app_length, HL; reflexivity).
    rewrite firstn_app, HL2 in B. rewrite (firstn_all2 (hd ++ [n2b (snd p)])) in B by lia.
    destruct (recv_exact_ok a 4 _ _ (x :: rest) [] F B HL2) as (c1 & E1 & F1 & B1). rewrite E1. cbn [app].
    assert (SZ : le_dec (firstn 3 (hd ++ [n2b (snd p)])) = N.of_nat (length (fst p))).
    { rewrite firstn_app, HL. rewrite firstn_all2 by lia. cbn [Nat.sub firstn]. rewrite app_nil_r. apply le_dec_enc_small. exact P1. }
    rewrite SZ, Nat2N.id. rewrite app_length, HL2 in L. rewrite (recv_exact_trouble _ x e _ X); [reflexivity|exact F1|]. rewrite B1, firstn_length. lia.
Qed.

(* one event, from a file and from a connection *)
Lemma both_read bl st f tail buf q c t rest : framed_ok f -> packet_ok (n2b 0 :: frame f, q) -> flowing c -> in_bytes c = wire (n2b 0 :: frame f, q) ++ t ->
  exists r st' buf' c', next bl (Reader (frame f ++ tail) st buf) = (as_file r, Reader tail st' buf') /\
    stream_next bl (Stream (c ++ rest) st) = (r, Stream (c' ++ rest) st') /\ flowing c' /\ in_bytes c' = t.
Proof.
  intros Hf Hp F B. destruct (next_frame bl (Reader (frame f ++ tail) st buf) f tail Hf eq_refl) as [buf' N]. cbn [rd_parser] in N.
  destruct (read_packet_ok c _ _ rest Hp F B) as (c1 & E1 & F1 & B1).
  assert (SN : stream_next bl (Stream (c ++ rest) st) = match parse_event bl st (fst f) (snd f) with
    | Ok (e, st') => (Ok (Some (inl (fst f, e))), Stream (c1 ++ rest) st')
    | Err e => (Ok (Some (inr e)), Stream (c1 ++ rest) st)
    | Panic => (Panic, Stream (c1 ++ rest) st)
    | Diverge => (Diverge, Stream (c1 ++ rest) st) end).
  { unfold stream_next. cbn [sm_in sm_parser]. rewrite E1, byte_at_head by lia. destruct f as [h p]. cbn [fst snd] in *. unfold frame. cbn [fst snd].
    change (0 =? resp_ok) with true. cbv iota. rewrite stream_event_ok by apply Hf. destruct (parse_event bl st h p) as [[e st']|e| |]; reflexivity. }
  rewrite N, SN. destruct (parse_event bl st (fst f) (snd f)) as [[e st']|e| |]; eexists _, _, buf', c1; (split; [|split; [reflexivity|auto]]); try reflexivity.
  destruct e as [[]| | | | | | | ]; reflexivity.
Qed.
Lemma both_calls bl fs : Forall framed_ok fs -> forall st buf tail qs c t rest, Forall packet_ok (combine (map (fun f => n2b 0 :: frame f) fs) qs) -> length qs = length fs ->
  flowing c -> in_bytes c = flat_map wire (combine (map (fun f => n2b 0 :: frame f) fs) qs) ++ t ->
  calls (next bl) (length fs) (Reader (flat_map frame fs ++ tail) st buf) = map as_file (calls (stream_next bl) (length fs) (Stream (c ++ rest) st)).
Proof.
  intros H. induction H as [|f fs Hf Hs IH]; intros st buf tail qs c t rest P L F B; [reflexivity|]. destruct qs as [|q qs]; [discriminate L|].
  cbn [map combine flat_map] in P, B. rewrite <- app_assoc in B. inversion P as [|? ? P1 P2]; subst.
  destruct (both_read bl st f (flat_map frame fs ++ tail) buf q c _ rest Hf P1 F B) as (r & st' & buf' & c' & N & S & F' & B').
  cbn [length calls flat_map]. rewrite <- app_assoc, N, S. cbn [map]. f_equal. cbn [length] in L. injection L as L. eapply IH; eassumption.
Qed.
