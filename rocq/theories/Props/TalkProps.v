(* Claimed properties: exactly which packets lead replicate() to an event stream, which to a panic and which to an error, and what is left in the client: C60, C62, C65, C72, C92. *)
From Coq Require Import Sorting.Permutation Strings.String.
From Verif Require Import Base.Tac Base.Bytes Base.Text Base.Res Base.Str Base.Parse Model.Gtid Model.GtidMaria Model.Events Model.Client Model.Commands Model.Responses Model.Channel Model.Session
  Spec.GtidSpec Spec.CodecSpec Spec.CommandSpec Spec.ChannelSpec Spec.SessionSpec Spec.PanicSpec Proofs.CommandProofs Proofs.ChannelProofs Proofs.ReplicateProofs Proofs.PlanProofs Proofs.LoginProofs
  Proofs.PanicProofs Proofs.TalkProofs Proofs.TalkPacketProofs Proofs.TalkLoginProofs Proofs.TalkSetupProofs Proofs.TalkLeftProofs Props.CommandProps Props.ChannelProps Props.SessionProps Props.PanicProps Spec.TalkSpec.
Local Open Scope N_scope.

(* ---- C60: the greetings that are accepted ---- *)
Theorem C60_accepted_iff : forall p h, parse_handshake p = Ok h <-> greets p h.
Proof. exact greets_exact. Qed.
Print Assumptions C60_accepted_iff.
(* a greeting without the two optional parts *)
Example C60_accepted_example : exists h, parse_handshake (n2b 10 :: utf8_encode (tx "5.0") ++ [n2b 0] ++ [n2b 1; n2b 0; n2b 0; n2b 0] ++ utf8_encode (tx "abc") ++ [n2b 0] ++ repeat (n2b 0) 18) = Ok h /\
  hs_plugin h = [] /\ hs_scramble h = tx "abc".
Proof. eexists. split; [vm_compute; reflexivity|]. split; reflexivity. Qed.

(* ---- C65: the result sets that are read ---- *)
Theorem C65_rows_iff : forall w r w', w_log w = [] -> read_result_set w = (r, w') ->
  (forall rows, r = Ok rows <-> rows_are (received (w_log w')) rows) /\
  (r = Panic <-> (exists k s, received (w_log w') = k ++ [([], s)]) \/
    exists k rows p, received (w_log w') = k ++ [p] /\ rows_open k rows /\ not_byte 0xFF (fst p) /\ not_byte 0xFE (fst p) /\ row_huge (fst p)).
Proof.
  intros w r w' L E. destruct (tr_result (w_client w)) as (_ & G & _). destruct (G w eq_refl) as (l & L1 & N & H1 & H2 & _). rewrite E in *. cbn [fst snd] in *. rewrite L in L1. cbn [app] in L1. subst l. split.
  - intros rows. split; [intros ->; exact (proj2 (proj1 (H1 rows (w_client w')) (conj eq_refl eq_refl)))|]. intros H. exact (proj1 (proj2 (H1 rows (w_client w)) (conj eq_refl H))).
  - split; [intros ->; destruct (proj1 H2 eq_refl) as [Z|Z]; [right; exact Z|left; exact Z]|]. intros [(k & s & Z)|Z]; [|exact (proj2 H2 Z)].
    assert (I : In (Received [] s) (w_log w')).
    { assert (J : In ([], s) (received (w_log w'))) by (rewrite Z; apply in_or_app; right; left; reflexivity). unfold received in J. apply in_flat_map in J. destruct J as ([p q|p q] & J1 & J2); cbn in J2; [contradiction|].
      destruct J2 as [J2|[]]. injection J2 as -> ->. exact J1. }
    destruct (EmptyProofs.emp_result_set w r w' E) as (l & L' & K). rewrite L in L'. cbn [app] in L'. apply K. exists s. now rewrite <- L'.
Qed.
Print Assumptions C65_rows_iff.
(* and they are read when they are there, up to the last packet and no further *)
Theorem C65_rows_sent : forall w ps qs t rest rows, pending (w_in w) (ps ++ qs) t rest -> rows_are ps rows ->
  exists w', read_result_set w = (Ok rows, w') /\ w_client w' = w_client w /\ pending (w_in w') qs t rest.
Proof.
  intros w ps qs t rest rows P H. destruct (tr_result (w_client w)) as (_ & _ & R). destruct (R w eq_refl ps qs t rest P) as [R1 _]; [exact (result_set_fin w)|].
  destruct (R1 _ _ (conj eq_refl H)) as (E1 & E2 & _ & E4). destruct (read_result_set w) as [r w']. cbn [fst snd] in *. subst r. eauto.
Qed.
Print Assumptions C65_rows_sent.
(* a column definition that begins like an error; lengths in a longer form than needed *)
Example C65_rows_example : rows_are (number [[n2b 1]; errp 1045 (tx "no"); [n2b 0xFE]; n2b 0xFC :: n2b 2 :: n2b 0 :: tx_bytes "ab"; [n2b 0xFE]]) [[tx "ab"]].
Proof.
  exists (number [[n2b 1]; errp 1045 (tx "no"); [n2b 0xFE]; n2b 0xFC :: n2b 2 :: n2b 0 :: tx_bytes "ab"]), ([n2b 0xFE], 0). split; [reflexivity|]. split; [|exists []; reflexivity].
  exists ([n2b 1], 0), (number [errp 1045 (tx "no")]), ([n2b 0xFE], 0), (number [n2b 0xFC :: n2b 2 :: n2b 0 :: tx_bytes "ab"]). split; [reflexivity|]. split; [eexists; eexists; split; [reflexivity|discriminate]|].
  split; [constructor; [eexists; eexists; split; [reflexivity|discriminate]|constructor]|]. split; [exists []; reflexivity|]. constructor; [|constructor].
  split; [eexists; eexists; split; [reflexivity|discriminate]|]. split; [eexists; eexists; split; [reflexivity|discriminate]|]. cbn [fst].
  apply (rc_cons (n2b 0xFC :: le_enc 2 2) (tx "ab") [] []); [repeat constructor|apply lenenc3; reflexivity|constructor].
Qed.

(* ---- C72, C92: replicate() ---- *)
Lemma caller_fits_fits ev st o : caller_fits ev st o -> fits ev o.
Proof.
  intros (NF & HB & F1 & F2 & F3). split; [exact F1|]. split; [exact F2|]. intros S. split; [exact F1|]. intros s E. destruct (F3 S s E) as (K1 & K2 & K3 & K4 & K5). rewrite set_bytes by assumption. auto 10.
Qed.
Definition rsa_fits (ev : env) : Prop := forall k m, rsa (e_crypto ev) k m <> Panic /\ forall e, rsa (e_crypto ev) k m = Ok e -> N.of_nat (length e) < 16777216.
Lemma received_in p s l : In (p, s) (received l) -> In (Received p s) l.
Proof. unfold received. rewrite in_flat_map. intros ([q n|q n] & J1 & J2); cbn in J2; [contradiction|]. destruct J2 as [J2|[]]. injection J2 as -> ->. exact J1. Qed.

(* it panics exactly when the packets received are of one of the forms listed in spec/TalkSpec: talk_stops *)
Theorem C72_panics_iff : forall bl ev st w r w', hashes ev -> rsa_fits ev -> caller_fits ev st (c_opts (w_client w)) -> w_log w = [] -> replicate bl ev st w = (r, w') ->
  (r = Panic <-> talk_stops bl ev st (c_opts (w_client w)) (received (w_log w'))).
Proof.
  intros bl ev st w r w' HH RS CF L E. destruct (tr_replicate bl ev st (proj1 (proj2 CF)) HH (proj1 CF) RS (w_client w) (caller_fits_fits _ _ _ CF)) as (_ & G & _).
  destruct (G w eq_refl) as (l & L1 & N & H1 & H2 & _). rewrite E in *. cbn [fst snd] in *. rewrite L in L1. cbn [app] in L1. subst l. rewrite <- all_stops_talk. split; [apply H2|].
  intros [H|(k & s & H)]; [now apply H2|]. apply (C72_empty_packet bl ev st w r w' s L E). apply received_in. rewrite H. apply in_or_app. right. left. reflexivity.
Qed.
Print Assumptions C72_panics_iff.
(* and when such packets, not ending in an empty one, are there to be read *)
Theorem C72_panics_sent : forall bl ev st w ps qs t rest, hashes ev -> rsa_fits ev -> (forall k m, rsa (e_crypto ev) k m <> Diverge) -> caller_fits ev st (c_opts (w_client w)) ->
  pending (w_in w) (ps ++ qs) t rest -> talk_stops bl ev st (c_opts (w_client w)) ps -> (forall k s, ps <> k ++ [([], s)]) ->
  exists w' l, replicate bl ev st w = (Panic, w') /\ w_log w' = w_log w ++ l /\ received l = ps.
Proof.
  intros bl ev st w ps qs t rest HH RS RD CF P S NE. destruct (tr_replicate bl ev st (proj1 (proj2 CF)) HH (proj1 CF) RS (w_client w) (caller_fits_fits _ _ _ CF)) as (_ & _ & R).
  destruct (R w eq_refl ps qs t rest P (C61_returns bl ev st w RD)) as [_ R2]. apply all_stops_talk in S. destruct S as [S|(k & s & S)]; [|now apply NE in S].
  destruct (R2 S) as (E1 & l & E2 & E3). destruct (replicate bl ev st w) as [r w']. cbn [fst snd] in *. subst r. eauto.
Qed.
Print Assumptions C72_panics_sent.
(* a status of one column, an SSL offer: instances *)
Example C72_iff_example : talk_stops Release env0 (Settings IfAvailable (tx "repl") (tx "secret") None 42 true 30000000000) o_here
  [(hello_bytes (Hello 10 (tx "8.0.30") 7 (tx "abcdefgh") (557568 + 2048) 45 2 21 (repeat 0 6) 0 (tx "ijklmnopqrst") native_name), 0)].
Proof.
  eapply ts_ssl; [reflexivity| | |].
  - split; [eexists; eexists; split; [reflexivity|discriminate]|]. split; [apply greets_exact; vm_compute; reflexivity|]. split; [left; reflexivity|]. intros Z; discriminate Z.
  - discriminate.
  - vm_compute. reflexivity.
Qed.

(* it succeeds exactly when the packets received are those of an accepted login and of accepted steps; the client then holds the position and nothing of an earlier stream *)
Theorem C92_succeeds_iff : forall bl ev st w r w' ck c', hashes ev -> rsa_fits ev -> caller_fits ev st (c_opts (w_client w)) -> w_log w = [] -> replicate bl ev st w = (r, w') ->
  ((r = Ok ck /\ w_client w' = c') <-> exists o', c' = Client o' false None None /\ talk_ok bl ev st (c_opts (w_client w)) (received (w_log w')) o' ck).
Proof.
  intros bl ev st w r w' ck c' HH RS CF L E. destruct (tr_replicate bl ev st (proj1 (proj2 CF)) HH (proj1 CF) RS (w_client w) (caller_fits_fits _ _ _ CF)) as (_ & G & _).
  destruct (G w eq_refl) as (l & L1 & N & H1 & H2 & _). rewrite E in *. cbn [fst snd] in *. rewrite L in L1. cbn [app] in L1. subst l. apply H1.
Qed.
Print Assumptions C92_succeeds_iff.
(* when such packets are there to be read, it succeeds, and what follows them is left for the event stream *)
Theorem C92_succeeds_sent : forall bl ev st w ps qs t rest o' ck, hashes ev -> rsa_fits ev -> (forall k m, rsa (e_crypto ev) k m <> Diverge) -> caller_fits ev st (c_opts (w_client w)) ->
  pending (w_in w) (ps ++ qs) t rest -> talk_ok bl ev st (c_opts (w_client w)) ps o' ck ->
  exists w' l, replicate bl ev st w = (Ok ck, w') /\ w_client w' = Client o' false None None /\ w_log w' = w_log w ++ l /\ received l = ps /\ pending (w_in w') qs t rest.
Proof.
  intros bl ev st w ps qs t rest o' ck HH RS RD CF P S. destruct (tr_replicate bl ev st (proj1 (proj2 CF)) HH (proj1 CF) RS (w_client w) (caller_fits_fits _ _ _ CF)) as (_ & _ & R).
  destruct (R w eq_refl ps qs t rest P (C61_returns bl ev st w RD)) as [R1 _]. destruct (R1 (Client o' false None None) ck) as (E1 & E2 & (l & E3 & E4) & E5); [eauto|].
  destruct (replicate bl ev st w) as [r w']. cbn [fst snd] in *. subst r. exists w', l. auto.
Qed.
Print Assumptions C92_succeeds_sent.
(* in every other case it returns an error *)
Theorem C92_fails_iff : forall bl ev st w r w', hashes ev -> rsa_fits ev -> (forall k m, rsa (e_crypto ev) k m <> Diverge) -> caller_fits ev st (c_opts (w_client w)) -> w_log w = [] ->
  replicate bl ev st w = (r, w') ->
  ((exists e, r = Err e) <-> ~ (exists o' ck, talk_ok bl ev st (c_opts (w_client w)) (received (w_log w')) o' ck) /\ ~ talk_stops bl ev st (c_opts (w_client w)) (received (w_log w'))).
Proof.
  intros bl ev st w r w' HH RS RD CF L E. pose proof (C72_panics_iff bl ev st w r w' HH RS CF L E) as P. pose proof (fun ck c' => C92_succeeds_iff bl ev st w r w' ck c' HH RS CF L E) as S.
  pose proof (C61_returns bl ev st w RD) as D. rewrite E in D. cbn [fst] in D. rewrite <- P. split.
  - intros (e & ->). split; [|discriminate]. intros (o' & ck & H). destruct (proj2 (S ck (Client o' false None None))) as [Z _]; [eauto|discriminate Z].
  - intros [N1 N2]. destruct r as [ck|e| |]; [|eauto|now destruct N2|now destruct D]. exfalso. apply N1. destruct (proj1 (S ck (w_client w'))) as (o' & _ & H); eauto.
Qed.
Print Assumptions C92_fails_iff.
(* every packet received is one of those the outcome depends on: what was received before success is no part of a longer success *)
Theorem C92_no_longer : forall bl ev st c p q o1 ck1 o2 ck2, hashes ev -> rsa_fits ev -> caller_fits ev st (c_opts c) -> Forall packet_ok (p ++ q) ->
  talk_ok bl ev st (c_opts c) p o1 ck1 -> (talk_ok bl ev st (c_opts c) (p ++ q) o2 ck2 -> q = [] /\ o1 = o2 /\ ck1 = ck2) /\ (talk_stops bl ev st (c_opts c) (p ++ q) -> exists k s, p ++ q = k ++ [([], s)]).
Proof.
  intros bl ev st c p q o1 ck1 o2 ck2 HH RS CF N H. destruct (tr_replicate bl ev st (proj1 (proj2 CF)) HH (proj1 CF) RS c (caller_fits_fits _ _ _ CF)) as ([A1 A2] & _ & _). split.
  - intros K. destruct (A1 (Client o1 false None None) ck1 p (Client o2 false None None) ck2 q N) as (-> & E1 & E2); [eauto..|]. injection E1 as ->. auto.
  - intros K. apply all_stops_talk in K. destruct K as [K|(k & s & K)]; [|eauto]. exfalso. apply (A2 (Client o1 false None None) ck1 p q N); eauto.
Qed.
Print Assumptions C92_no_longer.
(* a run from the server's position: all conditions hold, so the packets are of the form required *)
(* an encryption of fixed size, as RSA is *)
Definition env1 : env := Env (Crypto (sha1 toy) (sha256 toy) (fun _ m => Ok (firstn 256 (m ++ repeat (n2b 0) 256)))) (fun s => s).
Lemma env1_hashes : hashes env1.
Proof. exact C61_example_hashes. Qed.
Lemma env1_rsa : rsa_fits env1.
Proof. intros k m. split; [discriminate|]. intros e E. assert (E2 : e = firstn 256 (m ++ repeat (n2b 0) 256)) by (cbn in E |- *; congruence). rewrite E2. clear E E2. set (x := m ++ _). pose proof (firstn_le_length 256 x) as L. lia. Qed.
Example C92_example : caller_fits env1 st0 from_end /\ exists o' ck ps, map fst ps = [mysql_hello; okp] ++ status_answer ++ good_answers /\ talk_ok Release env1 st0 from_end ps o' ck /\
  o_file o' = tx "binlog.000007" /\ o_pos o' = 9001 /\ ck = CkCrc32.
Proof.
  assert (CF : caller_fits env1 st0 from_end) by exact (proj1 C72_example). split; [exact CF|].
  destruct (replicate Release env1 st0 (start from_end ([mysql_hello; okp] ++ status_answer ++ good_answers))) as [r w'] eqn:E.
  assert (K : r = Ok CkCrc32 /\ w_client w' = Client (Options (tx "binlog.000007") 9001 None None FromEnd) false None None /\ map fst (received (w_log w')) = [mysql_hello; okp] ++ status_answer ++ good_answers).
  { assert (K0 : fst (replicate Release env1 st0 (start from_end ([mysql_hello; okp] ++ status_answer ++ good_answers))) = Ok CkCrc32 /\
      w_client (snd (replicate Release env1 st0 (start from_end ([mysql_hello; okp] ++ status_answer ++ good_answers)))) = Client (Options (tx "binlog.000007") 9001 None None FromEnd) false None None /\
      map fst (received (w_log (snd (replicate Release env1 st0 (start from_end ([mysql_hello; okp] ++ status_answer ++ good_answers)))))) = [mysql_hello; okp] ++ status_answer ++ good_answers)
      by (vm_compute; auto). rewrite E in K0. exact K0. }
  destruct K as (-> & K1 & K2). destruct (proj1 (C92_succeeds_iff Release env1 st0 (start from_end ([mysql_hello; okp] ++ status_answer ++ good_answers)) _ _ CkCrc32 _ env1_hashes env1_rsa CF eq_refl E) (conj eq_refl K1)) as (o' & EO & H).
  injection EO as <-. eexists. exists CkCrc32, (received (w_log w')). split; [exact K2|]. split; [exact H|]. auto.
Qed.

(* ---- C62: what an attempt leaves in the client, whatever its outcome ---- *)
Theorem C62_left : forall bl ev st w r w', hashes ev -> rsa_fits ev -> caller_fits ev st (c_opts (w_client w)) -> w_log w = [] -> replicate bl ev st w = (r, w') ->
  left_client bl ev st (w_client w) (received (w_log w')) (w_client w').
Proof. intros bl ev st w r w' HH RS CF L E. exact (replicate_left bl ev st (proj1 (proj2 CF)) HH (proj1 CF) RS w r w' (caller_fits_fits _ _ _ CF) L E). Qed.
Print Assumptions C62_left.
(* the saved coordinates stay as they were unless a complete status of one row was received; then the file name is the server's *)
Theorem C62_unchanged_iff : forall bl ev st w r w', hashes ev -> rsa_fits ev -> caller_fits ev st (c_opts (w_client w)) -> w_log w = [] -> replicate bl ev st w = (r, w') ->
  (c_opts (w_client w') = c_opts (w_client w) <-> forall file cells, told bl ev st (c_opts (w_client w)) (received (w_log w')) file cells -> file = [] /\ new_pos (c_opts (w_client w)) cells (o_pos (c_opts (w_client w)))).
Proof.
  intros bl ev st w r w' HH RS CF L E. pose proof (C62_left bl ev st w r w' HH RS CF L E) as H. assert (NM : Forall packet_ok (received (w_log w'))).
  { destruct (tr_replicate bl ev st (proj1 (proj2 CF)) HH (proj1 CF) RS (w_client w) (caller_fits_fits _ _ _ CF)) as (_ & G & _). destruct (G w eq_refl) as (l & L1 & N & _). rewrite E, L in L1. cbn [snd app] in L1. now subst l. }
  destruct (w_client w) as [o t m y] eqn:W. destruct H as [(login & pr & more & o' & _ & _ & LO & ->)|(NL & ->)]; cbn [c_opts] in *.
  - destruct LO as [(file & cells & pos & T & NP & ->)|(NT & ->)]; cbn [c_opts].
    + assert (AE : at_end o) by (destruct T as (? & ? & ? & ? & _ & _ & A & _); exact A). destruct AE as [_ FE]. split.
      * intros EQ f2 c2 T2. destruct (told_one bl ev st HH (proj1 CF) RS o _ file cells f2 c2 NM T T2) as [<- <-]. assert (EP : pos = o_pos o) by (rewrite <- EQ; reflexivity). assert (EF : file = o_file o) by (rewrite <- EQ; reflexivity).
        rewrite FE in EF. rewrite <- EP. auto.
      * intros K. destruct (K _ _ T) as [-> NP2]. rewrite (new_pos_one o cells pos (o_pos o) NP NP2). destruct o as [f p s l g]. cbn in *. now subst f.
    + split; [|reflexivity]. intros _ file cells T. now destruct (NT file cells).
  - split; [|reflexivity]. intros _ file cells (login & pr & rs & more & EQ & LO & _). exfalso. now apply (NL login pr (rs ++ more) EQ).
Qed.
Print Assumptions C62_unchanged_iff.
(* a status whose position is 2^32: the file name is taken over, the position is not *)
Example C62_left_example : caller_fits env1 st0 from_end /\ exists ps cells, told Release env1 st0 from_end ps (tx "binlog.000007") cells /\ (forall n, ~ new_pos from_end cells n \/ n = 0).
Proof.
  assert (CF : caller_fits env1 st0 from_end) by exact (proj1 C72_example). split; [exact CF|].
  set (w := start from_end ([mysql_hello; okp] ++ result_bodies (rset [[tx "binlog.000007"; tx "4294967296"]]))).
  destruct (replicate Release env1 st0 w) as [r w'] eqn:E. pose proof (C62_left Release env1 st0 w r w' env1_hashes env1_rsa CF eq_refl E) as H.
  assert (K : c_opts (w_client w') = Options (tx "binlog.000007") 0 None None FromEnd).
  { assert (K0 : c_opts (w_client (snd (replicate Release env1 st0 w))) = Options (tx "binlog.000007") 0 None None FromEnd) by (vm_compute; reflexivity). rewrite E in K0. exact K0. }
  destruct H as [(login & pr & more & o' & _ & _ & LO & EC)|(_ & EC)]; rewrite EC in K; cbn [c_opts] in K.
  2: { exfalso. cbn in K. discriminate K. }
  subst o'. destruct LO as [(file & cells & pos & T & NP & EQ)|(_ & EQ)]; [|discriminate EQ]. injection EQ as EF EP. subst file pos.
  eexists. exists cells. split; [exact T|]. clear - NP. intros n. destruct (N.eq_dec n 0) as [EN|NE]; [right; exact EN|]. left. intros Z. apply NE. exact (new_pos_one _ _ _ _ Z NP).
Qed.
