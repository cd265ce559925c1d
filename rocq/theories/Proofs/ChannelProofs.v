(* Packets, responses and the event stream *)
From Coq Require Import Strings.String.
From Verif Require Import Base.Tac Base.Bytes Base.Text Base.Res Base.Str Base.Parse Model.Codec Model.Events Model.Commands Model.Responses Model.Channel
  Spec.CodecSpec Spec.EventSpec Spec.ChannelSpec Proofs.CodecProofs Proofs.EventProofs Proofs.EventSafe.
Local Open Scope N_scope.

(* ---- read_exact ---- *)
Lemma in_bytes_app a b : in_bytes (a ++ b) = in_bytes a ++ in_bytes b.
Proof. apply flat_map_app. Qed.
Lemma recv_exact_ok c : forall n x t rest acc, flowing c -> in_bytes c = x ++ t -> length x = n ->
  exists c', recv_exact n (c ++ rest) acc = (Ok (acc ++ x), c' ++ rest) /\ flowing c' /\ in_bytes c' = t.
Proof.
  induction c as [|[bs| |] c IH]; intros n x t rest acc F B L.
  - cbn in B. symmetry in B. apply app_eq_nil in B. destruct B as [-> ->]. cbn in L. destruct n as [|n]; [|discriminate L]. exists []. cbn [app]. rewrite app_nil_r.
    split; [destruct rest; reflexivity|]. split; [constructor|reflexivity].
  - assert (F' : flowing c) by (now inversion F). cbn [app]. destruct n as [|n].
    + exists (Got bs :: c). destruct x; [|discriminate L]. rewrite app_nil_r. split; [reflexivity|]. split; [exact F|exact B].
    + cbn [in_bytes flat_map] in B. fold (in_bytes c) in B. cbn [recv_exact].
      destruct (Nat.leb_spec (length bs) (S n)) as [Q|Q].
      * assert (X : x = bs ++ skipn (length bs) x /\ in_bytes c = skipn (length bs) x ++ t).
        { assert (P1 : firstn (length bs) (bs ++ in_bytes c) = firstn (length bs) (x ++ t)) by now rewrite B.
          rewrite firstn_app_exact in P1. rewrite firstn_app in P1. replace (length bs - length x)%nat with 0%nat in P1 by lia.
          cbn [firstn] in P1. rewrite app_nil_r in P1.
          assert (P2 : x = bs ++ skipn (length bs) x) by (rewrite P1 at 1; now rewrite firstn_skipn).
          split; [exact P2|]. rewrite P2 in B at 1. rewrite <- app_assoc in B. apply app_inv_head in B. exact B. }
        destruct X as [X1 X2].
        destruct (IH (S n - length bs)%nat (skipn (length bs) x) t rest (acc ++ bs)) as (c' & E & G & K).
        { exact F'. } { exact X2. } { rewrite skipn_length. lia. }
        exists c'. rewrite E, <- app_assoc, <- X1. auto.
      * assert (X : x = firstn (S n) bs /\ t = skipn (S n) bs ++ in_bytes c).
        { rewrite <- (firstn_skipn (S n) bs) in B. rewrite <- app_assoc in B.
          assert (LL : length (firstn (S n) bs) = S n) by (rewrite firstn_length; lia).
          assert (P : firstn (S n) (firstn (S n) bs ++ skipn (S n) bs ++ in_bytes c) = firstn (S n) (x ++ t)) by now rewrite B.
          rewrite <- LL in P at 1. rewrite firstn_app_exact in P. rewrite <- L in P at 2. rewrite firstn_app_exact in P.
          split; [now symmetry|]. rewrite P in B. apply app_inv_head in B. now symmetry. }
        destruct X as [-> ->]. exists (Got (skipn (S n) bs) :: c). split; [reflexivity|]. split; [constructor; [split; discriminate|exact F']|reflexivity].
  - inversion F as [|? ? [H _] _]; subst. now destruct H.
  - inversion F as [|? ? [_ H] _]; subst. now destruct H.
Qed.
Lemma recv_exact_skip c n rest acc : flowing c -> in_bytes c = [] -> recv_exact (S n) (c ++ rest) acc = recv_exact (S n) rest acc.
Proof.
  induction c as [|[bs| |] c IH]; intros F B; [reflexivity| |inversion F as [|? ? [H _] _]; now destruct H|inversion F as [|? ? [_ H] _]; now destruct H].
  cbn [in_bytes flat_map] in B. apply app_eq_nil in B. destruct B as [-> B]. inversion F; subst.
  cbn [app recv_exact length]. destruct (Nat.leb_spec 0 (S n)); [|lia]. rewrite app_nil_r. apply IH; assumption.
Qed.
(* too few bytes before the end *)
Lemma recv_exact_end c : forall n acc, flowing c -> (length (in_bytes c) < n)%nat -> recv_exact n c acc = (Err (EIo UnexpectedEof), []).
Proof.
  induction c as [|[bs| |] c IH]; intros n acc F L.
  - destruct n; [cbn in L; lia|reflexivity].
  - destruct n; [lia|]. inversion F; subst. cbn [in_bytes flat_map] in L. rewrite app_length in L. cbn [recv_exact].
    destruct (Nat.leb_spec (length bs) (S n)); [|lia]. apply IH; [assumption|]. fold (in_bytes c) in L. lia.
  - inversion F as [|? ? [H _] _]; now destruct H.
  - inversion F as [|? ? [_ H] _]; now destruct H.
Qed.

(* ---- read_packet ---- *)
Lemma read_packet_ok c p t rest : packet_ok p -> flowing c -> in_bytes c = wire p ++ t ->
  exists c', read_packet (c ++ rest) = (Ok p, c' ++ rest) /\ flowing c' /\ in_bytes c' = t.
Proof.
  intros [P1 P2] F B. unfold wire in B. rewrite !app_assoc in B. rewrite <- (app_assoc _ (fst p)) in B.
  assert (HL : length (le_enc 3 (N.of_nat (length (fst p))) ++ [n2b (snd p)]) = 4%nat) by (rewrite app_length, le_enc_length; reflexivity).
  destruct (recv_exact_ok c 4 _ _ rest [] F B HL) as (c1 & E1 & F1 & B1).
  assert (SZ : le_dec (firstn 3 ([] ++ le_enc 3 (N.of_nat (length (fst p))) ++ [n2b (snd p)])) = N.of_nat (length (fst p))).
  { cbn [app]. rewrite firstn_app, le_enc_length. rewrite firstn_all2 by (rewrite le_enc_length; lia). cbn [Nat.sub firstn]. rewrite app_nil_r.
    apply le_dec_enc_small. exact P1. }
  assert (SQ : le_dec (skipn 3 ([] ++ le_enc 3 (N.of_nat (length (fst p))) ++ [n2b (snd p)])) = snd p).
  { cbn [app]. rewrite skipn_app, le_enc_length. rewrite skipn_all2 by (rewrite le_enc_length; lia). cbn [Nat.sub skipn app le_dec].
    rewrite b2n_n2b by exact P2. lia. }
  destruct (recv_exact_ok c1 (length (fst p)) (fst p) t rest [] F1 B1 eq_refl) as (c2 & E2 & F2 & B2).
  exists c2. unfold read_packet. rewrite E1, SZ, SQ, Nat2N.id, E2. cbn [app]. rewrite <- surjective_pairing. auto.
Qed.
Lemma read_packet_trouble c x k rest : trouble x = Some k -> flowing c -> in_bytes c = [] -> read_packet (c ++ x :: rest) = (Err (EIo k), rest).
Proof. intros X F B. unfold read_packet. rewrite recv_exact_skip by assumption. destruct x; try discriminate X; injection X as <-; reflexivity. Qed.
Lemma read_packet_end c : flowing c -> (length (in_bytes c) < 4)%nat -> read_packet c = (Err (EIo UnexpectedEof), []).
Proof. intros F B. unfold read_packet. now rewrite recv_exact_end. Qed.
Lemma read_many_ok ps : forall c t rest, Forall packet_ok ps -> flowing c -> in_bytes c = flat_map wire ps ++ t ->
  exists c', read_many (length ps) (c ++ rest) = (Ok ps, c' ++ rest) /\ flowing c' /\ in_bytes c' = t.
Proof.
  induction ps as [|p ps IH]; intros c t rest P F B; cbn [length read_many].
  - exists c. auto.
  - inversion P as [|? ? P1 P2]; subst. cbn [flat_map] in B. rewrite <- app_assoc in B.
    destruct (read_packet_ok c p _ rest P1 F B) as (c1 & E1 & F1 & B1). rewrite E1.
    destruct (IH c1 t rest P2 F1 B1) as (c2 & E2 & F2 & B2). rewrite E2. exists c2. auto.
Qed.

(* ---- writing ---- *)
Lemma firstn_plus {T} (l : list T) : forall a c, firstn a l ++ firstn c (skipn a l) = firstn (a + c) l.
Proof. induction l as [|y l IHl]; intros a c; [now rewrite !firstn_nil, skipn_nil, firstn_nil|]. destruct a; [reflexivity|]. cbn [firstn skipn Nat.add app]. now rewrite IHl. Qed.
Lemma gone_some n us : gone n us -> (0 < n)%nat.
Proof. induction 1; lia. Qed.
Lemma all_gone us : forall bs r, gone (length bs) us -> sock_write_all bs (us ++ r) = (Ok tt, bs, r).
Proof.
  intros bs r G. remember (length bs) as n eqn:L. revert bs L. induction G as [n k H|n k us H G IH|n us G IH]; intros bs L; cbn [app].
  - destruct bs as [|b bs]; [cbn in L; lia|]. destruct k as [|k]; [lia|]. cbn [sock_write_all]. rewrite skipn_all2 by lia. rewrite firstn_all2 by lia. destruct r; cbn [sock_write_all]; now rewrite app_nil_r.
  - destruct bs as [|b bs]; [cbn in L; lia|]. destruct k as [|k]; [lia|]. cbn [sock_write_all]. rewrite IH by (rewrite skipn_length; lia). now rewrite firstn_skipn.
  - destruct bs as [|b bs]; [|cbn [sock_write_all]; now apply IH]. apply gone_some in G. cbn in L. lia.
Qed.
Lemma all_stuck us : forall bs t r, stuck (length bs) us t -> sock_write_all bs (us ++ r) = (Err (EIo OtherIo), firstn t bs, r).
Proof.
  intros bs t r G. remember (length bs) as n eqn:L. revert bs L. induction G as [n H|n H|n k us t H G IH|n us t H G IH]; intros bs L; cbn [app]; (destruct bs as [|b bs]; [cbn in L; lia|]); cbn [sock_write_all]; try reflexivity.
  - destruct k as [|k]; [lia|]. rewrite IH by (rewrite skipn_length; lia). now rewrite <- firstn_plus.
  - now apply IH.
Qed.
Lemma all_waits us : forall bs t, waits (length bs) us t -> sock_write_all bs us = (Diverge, firstn t bs, []).
Proof.
  intros bs t G. remember (length bs) as n eqn:L. revert bs L. induction G as [n H|n k us t H G IH|n us t H G IH]; intros bs L; (destruct bs as [|b bs]; [cbn in L; lia|]); cbn [sock_write_all]; try reflexivity.
  - destruct k as [|k]; [lia|]. rewrite IH by (rewrite skipn_length; lia). now rewrite <- firstn_plus.
  - now apply IH.
Qed.
Lemma write_fate os : forall n, (0 < n)%nat -> (exists us r, os = us ++ r /\ gone n us) \/ (exists us r t, os = us ++ r /\ stuck n us t) \/ exists t, waits n os t.
Proof.
  induction os as [|o os IH]; intros n H; [right; right; exists 0%nat; now constructor|].
  destruct o as [[|k]| |].
  - right. left. exists [Took 0], os, 0%nat. split; [reflexivity|now constructor].
  - destruct (Nat.le_gt_cases n (S k)) as [Q|Q]; [left; exists [Took (S k)], os; split; [reflexivity|constructor; lia]|].
    destruct (IH (n - S k)%nat) as [(us & r & -> & G)|[(us & r & t & -> & G)|(t & G)]]; [lia| | |].
    + left. exists (Took (S k) :: us), r. split; [reflexivity|]. apply g_part; [lia|exact G].
    + right. left. exists (Took (S k) :: us), r, (S k + t)%nat. split; [reflexivity|]. apply s_part; [lia|exact G].
    + right. right. exists (S k + t)%nat. apply w_part; [lia|exact G].
  - destruct (IH n H) as [(us & r & -> & G)|[(us & r & t & -> & G)|(t & G)]].
    + left. exists (Signal :: us), r. split; [reflexivity|]. now apply g_again.
    + right. left. exists (Signal :: us), r, t. split; [reflexivity|]. now apply s_again.
    + right. right. exists t. now apply w_again.
  - right. left. exists [Failed], os, 0%nat. split; [reflexivity|now constructor].
Qed.
Lemma head_bytes {T} (a b c : list T) n : firstn n a = firstn (Nat.min n (length a)) (a ++ b ++ c).
Proof. rewrite firstn_app. replace (Nat.min n (length a) - length a)%nat with 0%nat by lia. cbn [firstn]. rewrite app_nil_r. destruct (Nat.le_ge_cases n (length a)); [now rewrite Nat.min_l|]. rewrite Nat.min_r, !firstn_all2 by lia. reflexivity. Qed.
Lemma wire_from_3 p s n : firstn (3 + n) (wire (p, s)) = le_enc 3 (N.of_nat (length p)) ++ firstn n ([n2b s] ++ p).
Proof. unfold wire. cbn [fst snd]. rewrite firstn_app, firstn_all2 by (rewrite le_enc_length; lia). rewrite le_enc_length. now replace (3 + n - 3)%nat with n by lia. Qed.
Lemma wire_from_4 p s n : firstn (4 + n) (wire (p, s)) = le_enc 3 (N.of_nat (length p)) ++ [n2b s] ++ firstn n p.
Proof. change (4 + n)%nat with (3 + S n)%nat. rewrite wire_from_3. reflexivity. Qed.
Lemma stuck_less n us t : stuck n us t -> (t < n)%nat.
Proof. induction 1; lia. Qed.
Lemma waits_less n us t : waits n us t -> (t < n)%nat.
Proof. induction 1; lia. Qed.
Lemma wire_to_3 p s t : (t < 3)%nat -> firstn t (wire (p, s)) = firstn t (le_enc 3 (N.of_nat (length p))).
Proof. intros H. unfold wire. cbn [fst snd]. rewrite firstn_app, le_enc_length. replace (t - 3)%nat with 0%nat by lia. cbn [firstn]. apply app_nil_r. Qed.
(* the result of write_packet, from the answers of the operating system *)
Lemma writes_went p s u n r : (16777216 <=? N.of_nat (length p) mod u32max1) = false -> le_enc 3 (N.of_nat (length p) mod u32max1) = le_enc 3 (N.of_nat (length p)) ->
  forall f, written u f n -> match f with
  | Whole => write_packet p s (u ++ r) = (Ok tt, firstn n (wire (p, s)), r)
  | Refused => write_packet p s (u ++ r) = (Err (EIo OtherIo), firstn n (wire (p, s)), r)
  | Blocked => write_packet p s u = (Diverge, firstn n (wire (p, s)), [])
  end.
Proof.
  intros B L3 f W. assert (A3 : length (le_enc 3 (N.of_nat (length p))) = 3%nat) by apply le_enc_length. assert (A1 : length (le_enc 1 s) = 1%nat) by apply le_enc_length.
  unfold write_packet. rewrite B, L3.
  destruct W as [u1 u2 k G1 G2|u1 u2 o G1 G2 HO|u1 t H|u1 u2 t G1 H|u1 u2 G1 G2|u1 t H|u1 u2 t G1 H]; rewrite <- ?app_assoc.
  - rewrite (all_gone u1) by (rewrite A3; exact G1). rewrite (all_gone u2) by (rewrite A1; exact G2). cbn [app sock_write]. rewrite wire_from_4. reflexivity.
  - rewrite (all_gone u1) by (rewrite A3; exact G1). rewrite (all_gone u2) by (rewrite A1; exact G2). change 4%nat with (4 + 0)%nat. rewrite wire_from_4. destruct HO as [-> | ->]; reflexivity.
  - rewrite (all_stuck u1 _ t) by (rewrite A3; exact H). rewrite wire_to_3 by exact (stuck_less _ _ _ H). reflexivity.
  - rewrite (all_gone u1) by (rewrite A3; exact G1). rewrite (all_stuck u2 _ t) by (rewrite A1; exact H). pose proof (stuck_less _ _ _ H). replace t with 0%nat by lia. rewrite wire_from_3. reflexivity.
  - replace (u1 ++ u2) with (u1 ++ u2 ++ []) by now rewrite app_nil_r. rewrite (all_gone u1) by (rewrite A3; exact G1). rewrite (all_gone u2) by (rewrite A1; exact G2). change 4%nat with (4 + 0)%nat. rewrite wire_from_4. reflexivity.
  - rewrite (all_waits u1 _ t) by (rewrite A3; exact H). rewrite wire_to_3 by exact (waits_less _ _ _ H). reflexivity.
  - rewrite (all_gone u1) by (rewrite A3; exact G1). rewrite (all_waits u2 _ t) by (rewrite A1; exact H). pose proof (waits_less _ _ _ H). replace t with 0%nat by lia. rewrite wire_from_3. reflexivity.
Qed.
Lemma written_some os : exists u r f n, os = u ++ r /\ written u f n /\ (f = Blocked -> r = []).
Proof.
  destruct (write_fate os 3) as [(u1 & r1 & -> & G1)|[(us & r & t & -> & G)|(t & G)]]; [lia| |exists us, r, Refused, t; split; [reflexivity|]; split; [now constructor|discriminate]|exists os, [], Blocked, t; rewrite app_nil_r; split; [reflexivity|]; split; [now constructor|reflexivity]].
  destruct (write_fate r1 1) as [(u2 & r2 & -> & G2)|[(us & r & t & -> & G)|(t & G)]]; [lia| |exists (u1 ++ us), r, Refused, (3 + t)%nat; split; [apply app_assoc|]; split; [now constructor|discriminate]|exists (u1 ++ r1), [], Blocked, (3 + t)%nat; rewrite app_nil_r; split; [reflexivity|]; split; [now constructor|reflexivity]].
  destruct r2 as [|o r].
  - exists (u1 ++ u2), [], Blocked, 4%nat. rewrite !app_nil_r. split; [reflexivity|]. split; [now constructor|reflexivity].
  - exists (u1 ++ u2 ++ [o]), r. destruct o as [k| |].
    + exists Whole, (4 + k)%nat. split; [now rewrite <- !app_assoc|]. split; [now constructor|discriminate].
    + exists Refused, 4%nat. split; [now rewrite <- !app_assoc|]. split; [apply wp_body; auto|discriminate].
    + exists Refused, 4%nat. split; [now rewrite <- !app_assoc|]. split; [apply wp_body; auto|discriminate].
Qed.
Lemma write_packet_ok p s os sent os' : N.of_nat (length p) < 16777216 -> write_packet p s os = (Ok tt, sent, os') ->
  exists u1 u2 n, os = u1 ++ u2 ++ Took n :: os' /\ gone 3 u1 /\ gone 1 u2 /\ sent = firstn (4 + n) (wire (p, s)).
Proof.
  intros L H. destruct (written_some os) as (u & r & f & n & -> & W & Z).
  assert (B : (16777216 <=? N.of_nat (length p) mod u32max1) = false) by (rewrite N.mod_small by (unfold u32max1; lia); apply N.leb_gt; lia).
  pose proof (writes_went p s u n r B) as X. rewrite N.mod_small in X by (unfold u32max1; lia). specialize (X eq_refl f W).
  destruct f; [|congruence|rewrite (Z eq_refl), app_nil_r in H; congruence]. inversion W as [u1 u2 k G1 G2| | | | | |]; subst. rewrite X in H. injection H as <- <-.
  exists u1, u2, k. split; [now rewrite <- !app_assoc|]. auto.
Qed.
(* an operating system that takes every buffer as a whole *)
Lemma write_packet_whole p s k os : N.of_nat (length p) < 16777216 -> (length p <= k)%nat -> (3 <= k)%nat ->
  write_packet p s (Took k :: Took k :: Took k :: os) = (Ok tt, le_enc 3 (N.of_nat (length p)) ++ le_enc 1 s ++ p, os).
Proof.
  intros L K1 K3. unfold write_packet. rewrite N.mod_small by (unfold u32max1; lia). destruct (N.leb_spec 16777216 (N.of_nat (length p))); [lia|].
  destruct k as [|k]; [lia|].
  assert (W : forall n m o, n <> 0%nat -> (n <= S k)%nat -> sock_write_all (le_enc n m) (Took (S k) :: o) = (Ok tt, le_enc n m, o)).
  { intros n m o N0 NK. destruct n as [|n]; [congruence|]. pose proof (le_enc_length (S n) m) as LL. destruct (le_enc (S n) m) as [|b l] eqn:E; [discriminate LL|].
    cbn [sock_write_all]. rewrite skipn_all2 by lia. rewrite firstn_all2 by lia. destruct o; cbn [sock_write_all]; now rewrite app_nil_r. }
  rewrite (W 3%nat) by lia. rewrite (W 1%nat) by lia. cbn [sock_write]. rewrite firstn_all2 by exact K1. reflexivity.
Qed.

(* ---- errors ---- *)
Lemma on_slice_end {A} (p : parser A) bs v : runs_end p bs v -> on_slice p bs = Ok v.
Proof. intros H. unfold on_slice. specialize (H []). cbn [app length] in H. now rewrite H. Qed.
Lemma on_slice_runs {A} (p : parser A) bs v post : runs p bs v -> on_slice p (bs ++ post) = Ok v.
Proof. intros H. unfold on_slice. specialize (H [] post). cbn [app length] in H. now rewrite H. Qed.
Lemma parse_error_ok code state msg : error_ok code state msg -> parse_error_packet (error_body code state msg) = Ok (ErrorPacket code msg state).
Proof.
  intros (H1 & H2 & H3). apply on_slice_end. unfold error_packet_parser, error_body. eapply runs_end_bind; [apply runs_u16; exact H1|].
  destruct state as [s|].
  - destruct H3 as [H3 H4]. change (n2b 35 :: utf8_encode s) with (utf8_encode (35 :: s)). rewrite <- utf8_encode_app.
    eapply runs_end_bind_last; [apply runs_end_to_string; apply Forall_app; split; [constructor; [reflexivity|exact H3]|exact H2]|].
    cbn [app]. change (35 =? 35) with true. cbv iota.
    destruct s as [|a [|b [|c [|d [|e [|? ?]]]]]]; try discriminate H4. cbn [app skipn firstn]. apply runs_runs_end, runs_ret.
  - cbn [app]. eapply runs_end_bind_last; [apply runs_end_to_string; exact H2|].
    destruct msg as [|c m]; [apply runs_runs_end, runs_ret|]. destruct (N.eqb_spec c 35) as [->|]; [now destruct (H3 m)|]. apply runs_runs_end, runs_ret.
Qed.
Lemma check_error_ok code state msg message : error_ok code state msg ->
  check_error_packet (n2b 255 :: error_body code state msg) message = Err (EServer message code msg state).
Proof.
  intros H. unfold check_error_packet, byte_at. cbn [nth_error rbind]. rewrite b2n_n2b by lia. change (255 =? resp_error) with true. cbv iota.
  cbn [skipn]. rewrite parse_error_ok by exact H. reflexivity.
Qed.

Lemma error_packet_total d : returns (parse_error_packet d).
Proof.
  assert (H : psafe error_packet_parser).
  { unfold error_packet_parser. psb. apply psafe_bind; [apply psafe_to_string|]. intros m. destruct m as [|c m]; [psl|]. destruct (c =? 35); psl. }
  specialize (H d 0%nat). unfold parse_error_packet, on_slice. destruct (error_packet_parser d 0%nat) as [[a p]|e| |]; exact H.
Qed.

(* ---- the stream ---- *)
Lemma stream_event_ok bl st h p : header_ok h ->
  stream_event bl st (n2b 0 :: header_bytes h ++ p) = (let? r := parse_event bl st h p in Ok (h, fst r, snd r)).
Proof.
  intros H. unfold stream_event. cbn [skipn]. rewrite header_exact by exact H. cbn [rbind].
  assert (HL : length (header_bytes h) = 19%nat) by (unfold header_bytes; rewrite !app_length, !le_enc_length; reflexivity).
  cbn [length]. rewrite app_length, HL. destruct (Nat.ltb_spec (S (19 + length p)) 20); [lia|].
  replace (skipn 19 (header_bytes h ++ p)) with p; [reflexivity|]. rewrite <- HL. now rewrite skipn_app_exact.
Qed.
Lemma byte_at_head b r : b < 256 -> byte_at (n2b b :: r) 0 = Ok b.
Proof. intros H. unfold byte_at. cbn [nth_error]. now rewrite b2n_n2b. Qed.
Lemma stream_takes bl st ss is st2 : streamed bl st ss is st2 -> forall c t rest ps,
  Forall said_ok ss -> map fst ps = map said_body ss -> Forall packet_ok ps -> flowing c -> in_bytes c = flat_map wire ps ++ t ->
  exists c', takes bl (Stream (c ++ rest) st) is (Stream (c' ++ rest) st2) /\ flowing c' /\ in_bytes c' = t.
Proof.
  intros H. induction H as [st|st h p e st' ss is st2 E H IH|st h p er ss is st2 E H IH|st cd s m ss is st2 H IH|st b d ss is st2 H IH];
    intros c t rest ps O M P F B.
  - destruct ps; [|discriminate M]. exists c. split; [constructor|]. auto.
  - destruct ps as [|[bd sq] ps]; [discriminate M|]. cbn [map fst] in M. pose proof (f_equal (hd []) M) as M1. pose proof (f_equal (@tl _) M) as M2. cbn [hd tl] in M1, M2. clear M. apply Forall_cons_iff in O. destruct O as [O1 O2]. apply Forall_cons_iff in P. destruct P as [P1 P2]. subst bd.
    cbn [flat_map] in B. rewrite <- app_assoc in B. destruct (read_packet_ok c _ _ rest P1 F B) as (c1 & E1 & F1 & B1).
    destruct (IH c1 t rest ps O2 M2 P2 F1 B1) as (c2 & T & X). exists c2. split; [|exact X]. eapply ta_item; [|exact T].
    unfold stream_next. cbn [sm_in sm_parser]. rewrite E1. cbn [said_body]. rewrite byte_at_head by lia. cbv iota. change (0 =? resp_ok) with true. cbv iota.
    rewrite stream_event_ok by exact O1. rewrite E. reflexivity.
  - destruct ps as [|[bd sq] ps]; [discriminate M|]. cbn [map fst] in M. pose proof (f_equal (hd []) M) as M1. pose proof (f_equal (@tl _) M) as M2. cbn [hd tl] in M1, M2. clear M. apply Forall_cons_iff in O. destruct O as [O1 O2]. apply Forall_cons_iff in P. destruct P as [P1 P2]. subst bd.
    cbn [flat_map] in B. rewrite <- app_assoc in B. destruct (read_packet_ok c _ _ rest P1 F B) as (c1 & E1 & F1 & B1).
    destruct (IH c1 t rest ps O2 M2 P2 F1 B1) as (c2 & T & X). exists c2. split; [|exact X]. eapply ta_item; [|exact T].
    unfold stream_next. cbn [sm_in sm_parser]. rewrite E1. cbn [said_body]. rewrite byte_at_head by lia. cbv iota. change (0 =? resp_ok) with true. cbv iota.
    rewrite stream_event_ok by exact O1. rewrite E. reflexivity.
  - destruct ps as [|[bd sq] ps]; [discriminate M|]. cbn [map fst] in M. pose proof (f_equal (hd []) M) as M1. pose proof (f_equal (@tl _) M) as M2. cbn [hd tl] in M1, M2. clear M. apply Forall_cons_iff in O. destruct O as [O1 O2]. apply Forall_cons_iff in P. destruct P as [P1 P2]. subst bd.
    cbn [flat_map] in B. rewrite <- app_assoc in B. destruct (read_packet_ok c _ _ rest P1 F B) as (c1 & E1 & F1 & B1).
    destruct (IH c1 t rest ps O2 M2 P2 F1 B1) as (c2 & T & X). exists c2. split; [|exact X]. eapply ta_item; [|exact T].
    unfold stream_next. cbn [sm_in sm_parser]. rewrite E1. cbn [said_body]. rewrite byte_at_head by lia. cbv iota. change (255 =? resp_ok) with false. cbv iota.
    change (255 =? resp_error) with true. cbv iota. unfold stream_error. cbn [skipn]. rewrite parse_error_ok by exact O1. reflexivity.
  - destruct ps as [|[bd sq] ps]; [discriminate M|]. cbn [map fst] in M. pose proof (f_equal (hd []) M) as M1. pose proof (f_equal (@tl _) M) as M2. cbn [hd tl] in M1, M2. clear M. apply Forall_cons_iff in O. destruct O as [O1 O2]. apply Forall_cons_iff in P. destruct P as [P1 P2]. subst bd.
    cbn [flat_map] in B. rewrite <- app_assoc in B. destruct (read_packet_ok c _ _ rest P1 F B) as (c1 & E1 & F1 & B1).
    destruct (IH c1 t rest ps O2 M2 P2 F1 B1) as (c2 & T & X). exists c2. split; [|exact X]. eapply ta_item; [|exact T]. cbn [said_ok] in O1.
    unfold stream_next. cbn [sm_in sm_parser]. rewrite E1. cbn [said_body]. rewrite byte_at_head by lia. cbv iota.
    unfold resp_ok, resp_error, resp_eof. destruct (N.eqb_spec b 0); [lia|]. destruct (N.eqb_spec b 255); [lia|]. destruct (N.eqb_spec b 254); [lia|]. reflexivity.
Qed.
(* EOF packet *)
Lemma stream_eof bl st c t rest d sq : packet_ok (n2b 254 :: d, sq) -> flowing c -> in_bytes c = wire (n2b 254 :: d, sq) ++ t ->
  exists c', stream_next bl (Stream (c ++ rest) st) = (Ok None, Stream (c' ++ rest) st) /\ flowing c' /\ in_bytes c' = t.
Proof.
  intros P F B. destruct (read_packet_ok c _ _ rest P F B) as (c1 & E1 & F1 & B1). exists c1. split; [|auto].
  unfold stream_next. cbn [sm_in sm_parser]. rewrite E1, byte_at_head by lia. reflexivity.
Qed.
Lemma takes_app bl s is1 s1 is2 s2 : takes bl s is1 s1 -> takes bl s1 is2 s2 -> takes bl s (is1 ++ is2) s2.
Proof. induction 1; intros; cbn [app]; [assumption|]. eapply ta_item; eauto. Qed.

(* ---- handshake ---- *)
Lemma land_bit c k : (0 <? N.land c (2 ^ k)) = N.testbit c k.
Proof.
  destruct (N.testbit c k) eqn:E.
  - assert (H : N.land c (2 ^ k) <> 0); [|lia]. intros H. assert (X : N.testbit (N.land c (2 ^ k)) k = false) by (rewrite H; apply N.bits_0).
    rewrite N.land_spec, E, N.pow2_bits_true in X. discriminate.
  - replace (N.land c (2 ^ k)) with 0; [reflexivity|]. symmetry. apply N.bits_inj_0. intros n. rewrite N.land_spec.
    destruct (N.eq_dec n k) as [->|D]; [now rewrite E|]. rewrite N.pow2_bits_false by (intros X; now apply D). apply Bool.andb_false_r.
Qed.
Lemma high_caps c m k : c < 4294967296 -> k < 32 -> N.testbit (c + 4294967296 * m) k = N.testbit c k.
Proof.
  intros Hc Hk. rewrite <- (N.mod_pow2_bits_low _ 32 k Hk). change (2 ^ 32) with 4294967296. f_equal.
  rewrite N.mul_comm, N.mod_add by lia. now apply N.mod_small.
Qed.
Lemma runs_cstring t : cstring_ok t -> runs read_null_term_string (cstring t) t.
Proof. intros [H1 H2]. now apply runs_null_string. Qed.
Lemma handshake_ok h post : hello_ok h -> parse_handshake (hello_bytes h ++ post) = Ok (Handshake (he_protocol h) (he_version h) (he_id h)
  (he_part1 h ++ if secure h then he_part2 h else []) (he_caps h + 4294967296 * he_more h) (he_charset h) (he_status h) (he_reserved h) (he_length h)
  (if plugin_auth h then he_plugin h else [])).
Proof.
  intros (H1 & H2 & H3 & H4 & H5 & H6 & H7 & H8 & H9 & H10 & H11 & H12 & H13). apply on_slice_runs. unfold handshake_parser, hello_bytes.
  eapply runs_bind; [apply runs_u8; exact H1|]. eapply runs_bind; [apply runs_cstring; exact H2|]. eapply runs_bind; [apply runs_u32; exact H3|].
  eapply runs_bind; [apply runs_cstring; exact H4|]. eapply runs_bind; [apply runs_read_bytes; [now rewrite le_enc_length|unfold isize_max; lia]|].
  eapply runs_bind; [apply runs_u8; exact H6|]. eapply runs_bind; [apply runs_u16; exact H7|].
  eapply runs_bind; [apply runs_read_bytes; [now rewrite le_enc_length|unfold isize_max; lia]|].
  eapply runs_bind; [apply runs_u8; exact H8|].
  assert (R : utf8_encode (he_reserved h) = map n2b (he_reserved h)).
  { clear - H10. induction H10 as [|c r Hc Hr IH]; [reflexivity|]. unfold utf8_encode in *. cbn [flat_map map]. rewrite IH. unfold utf8_char.
    destruct (N.ltb_spec c 128); [reflexivity|lia]. }
  eapply runs_bind; [apply runs_string; [split|]|].
  { eapply Forall_impl; [|exact H10]. intros c Hc. cbn beta in *. unfold scalar. lia. }
  { rewrite R, map_length, H9. unfold isize_max. lia. }
  { rewrite R, map_length, H9. reflexivity. }
  eapply runs_bind; [apply runs_read_bytes; [now rewrite le_enc_length|unfold isize_max; lia]|].
  assert (CE : le_dec (le_enc 2 (he_caps h mod 65536) ++ le_enc 2 (he_caps h / 65536) ++ le_enc 4 (he_more h)) = he_caps h + 4294967296 * he_more h).
  { rewrite !le_dec_app, !le_enc_length, !le_dec_enc_small.
    - change (256 ^ N.of_nat 2) with 65536. lia.
    - change (256 ^ N.of_nat 4) with 4294967296. lia.
    - change (256 ^ N.of_nat 2) with 65536. lia.
    - change (256 ^ N.of_nat 2) with 65536. lia. }
  rewrite CE. cbv zeta. change cap_secure_connection with (2 ^ 15). change cap_plugin_auth with (2 ^ 19). rewrite !land_bit, !high_caps by lia.
  fold (secure h) (plugin_auth h). eapply runs_bind with (v := he_part1 h ++ if secure h then he_part2 h else []).
  - destruct (secure h); [|rewrite app_nil_r; apply runs_ret]. eapply runs_bind_last; [apply runs_cstring; exact H12|apply runs_ret].
  - eapply runs_bind_last with (v := if plugin_auth h then he_plugin h else []); [|apply runs_ret].
    destruct (plugin_auth h); [apply runs_cstring; exact H13|apply runs_ret].
Qed.
