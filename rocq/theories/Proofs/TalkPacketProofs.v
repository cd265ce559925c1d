(* Exactly which packets are read as greetings, switch requests and rows. *)
From Coq Require Import Strings.String.
From Verif Require Import Base.Tac Base.Bytes Base.Text Base.Res Base.Str Base.Parse Model.Codec Model.Client Model.Commands
  Model.Responses Model.Channel Model.Session Spec.CodecSpec Spec.CommandSpec Spec.ChannelSpec Spec.SessionSpec Spec.PanicSpec Spec.StopSpec Spec.TalkSpec
  Proofs.CodecProofs Proofs.EventSafe Proofs.RowProofs Proofs.DecodeSafe Proofs.RiskProofs Proofs.OnceProofs Proofs.StopProofs Proofs.ChannelProofs Proofs.LoginProofs Proofs.PanicProofs.
Local Open Scope N_scope.

(* [R s a s']: started on s, the parser returns a and leaves s' *)
Definition sfx {A} (p : parser A) (R : list byte -> A -> list byte -> Prop) : Prop :=
  (forall s a s', R s a s' -> exists u, s = u ++ s') /\
  (forall pre s a q, p (pre ++ s) (length pre) = Ok (a, q) <-> exists u s', s = u ++ s' /\ R s a s' /\ q = length (pre ++ u)).
Lemma sfx_conv {A} (p : parser A) R R' : sfx p R -> (forall s a s', R s a s' <-> R' s a s') -> sfx p R'.
Proof.
  intros [H1 H2] E. split; [intros s a s' H; apply E in H; exact (H1 _ _ _ H)|]. intros pre s a q. rewrite H2. split; intros (u & s' & K1 & K2 & K3); exists u, s'; (split; [exact K1|]; split; [now apply E|exact K3]).
Qed.
Lemma sfx_bind {A B} (p : parser A) (f : A -> parser B) R Rf : sfx p R -> (forall a, sfx (f a) (Rf a)) -> sfx (pbind p f) (fun s b s2 => exists a s1, R s a s1 /\ Rf a s1 b s2).
Proof.
  intros [H1 H2] F. split.
  - intros s b s2 (a & s1 & K1 & K2). destruct (H1 _ _ _ K1) as (u & ->). destruct (proj1 (F a) _ _ _ K2) as (v & ->). exists (u ++ v). apply app_assoc.
  - intros pre s b q. unfold pbind. split.
    + destruct (p (pre ++ s) (length pre)) as [[a k]|?| |] eqn:E; try discriminate. apply H2 in E. destruct E as (u & s1 & -> & K & ->). intros E.
      rewrite app_assoc in E. apply (proj2 (F a)) in E. destruct E as (v & s2 & -> & K2 & ->). exists (u ++ v), s2. split; [apply app_assoc|]. split; [exists a, (v ++ s2); auto|]. now rewrite app_assoc.
    + intros (u & s2 & -> & (a & s1 & K1 & K2) & ->). destruct (H1 _ _ _ K1) as (v & E). destruct (proj1 (F a) _ _ _ K2) as (x & ->).
      assert (X : p (pre ++ u ++ s2) (length pre) = Ok (a, length (pre ++ v))) by (apply H2; exists v, (x ++ s2); auto). rewrite X. rewrite E, app_assoc.
      apply (proj2 (F a)). exists x, s2. split; [reflexivity|]. split; [exact K2|]. rewrite <- app_assoc. f_equal. f_equal. rewrite app_assoc in E. now apply app_inv_tail in E.
Qed.
Lemma sfx_exact {A} (p : parser A) : exactp p -> sfx p (fun s a s' => exists u, s = u ++ s' /\ runs p u a).
Proof.
  intros H. split; [intros s a s' (u & E & _); eauto|]. intros pre s a q. split.
  - intros E. destruct (runs_uses p H _ _ _ _ E) as (u & s' & -> & R & ->). exists u, s'. split; [reflexivity|]. split; [exists u; auto|reflexivity].
  - intros (u & s' & -> & (v & E & R) & ->). apply app_inv_tail in E. subst v. rewrite R. now rewrite app_length.
Qed.
Lemma sfx_ret {A} (a : A) : sfx (ret a) (fun s b s' => b = a /\ s' = s).
Proof.
  split; [intros s b s' [_ ->]; now exists []|]. intros pre s b q. unfold ret. split.
  - intros E. assert (b = a /\ q = length pre) as [-> ->] by (split; congruence). exists [], s. rewrite app_nil_r. auto.
  - intros (u & s' & E & [-> ->] & ->). assert (u = []) as -> by (apply (app_inv_tail s); now rewrite <- E). now rewrite app_nil_r.
Qed.
Lemma sfx_slice {A} (p : parser A) R bs a : sfx p R -> on_slice p bs = Ok a <-> exists s', R bs a s'.
Proof.
  intros [H1 H2]. unfold on_slice. specialize (H2 [] bs). cbn [app length] in H2. split.
  - destruct (p bs 0%nat) as [[b q]|?| |] eqn:E; try discriminate. intros X. assert (b = a) by congruence. subst b. destruct (proj1 (H2 a q) eq_refl) as (u & s' & _ & K & _). eauto.
  - intros (s' & K). destruct (H1 _ _ _ K) as (u & E). destruct (H2 a (length u)) as [_ X]. rewrite X; [reflexivity|]. exists u, s'. auto.
Qed.

(* ---- strings ---- *)
Lemma zero_free t : ~ In (n2b 0) (utf8_encode t) -> ~ In 0 t.
Proof. intros H I. apply H. unfold utf8_encode. apply in_flat_map. exists 0. split; [exact I|]. left. reflexivity. Qed.
Lemma cstr_suffix s t s' : cstr s t s' -> exists u, s = u ++ s'.
Proof. intros [t' r _|t' x _ _|]; [eauto|exists (utf8_encode t' ++ [x]); now rewrite app_nil_r|now exists []]. Qed.
Lemma until_none bs : ~ In (n2b 0) bs -> until (n2b 0) bs = bs.
Proof. intros H. destruct (until_cases (n2b 0) bs) as [[_ E]|(v & z & -> & _)]; [exact E|]. destruct H. apply in_or_app. right. now left. Qed.
Lemma sfx_cstr : sfx read_null_term_string cstr.
Proof.
  split; [intros s t s'; apply cstr_suffix|]. intros pre s t q. split.
  - intros E. assert (SK : skipn (length pre) (pre ++ s) = s) by (rewrite skipn_app, skipn_all, Nat.sub_diag; reflexivity).
    pose proof E as E'. unfold read_null_term_string, pbind, read_until, lift, from_utf8 in E'. rewrite SK in E'. destruct (utf8_decode (removelast (until (n2b 0) s))) as [u|] eqn:D; [|discriminate E'].
    assert (u = t /\ q = (length pre + length (until (n2b 0) s))%nat) as [-> ->] by (split; congruence). destruct (utf8_decode_sound _ _ D) as [V D'].
    destruct (until_cases (n2b 0) s) as [[H1 H2]|(v & z & -> & H2 & H3)].
    + rewrite H2 in *. exists s, []. rewrite !app_nil_r, app_length. split; [reflexivity|]. split; [|reflexivity]. destruct s as [|x s] using rev_ind; [cbn in D'; apply encode_nil in D'; subst t; constructor|]. clear IHs.
      rewrite removelast_last in D'. subst s. apply cs_cut; [|intros ->; apply H1, in_or_app; right; now left]. split; [exact V|]. apply zero_free. intros I. apply H1, in_or_app. now left.
    + rewrite H3 in *. rewrite removelast_last in D'. subst v. exists (cstring t), z. unfold cstring. rewrite <- app_assoc. split; [reflexivity|]. split; [|now rewrite !app_length].
      change (utf8_encode t ++ n2b 0 :: z) with (utf8_encode t ++ [n2b 0] ++ z). rewrite app_assoc. apply (cs_end t z). split; [exact V|now apply zero_free].
  - intros (u & s' & E & C & ->). revert u E. destruct C as [t rest [V F]|t x [V F] X|]; intros u E.
    + apply app_inv_tail in E. subst u. rewrite (runs_cstring t (conj V F) pre rest). now rewrite app_length.
    + rewrite app_nil_r in E. subst u. unfold read_null_term_string, pbind, read_until, lift, from_utf8. rewrite skipn_app, skipn_all, Nat.sub_diag. cbn [skipn app].
      rewrite until_none by (intros I; apply in_app_or in I; destruct I as [I|[I|[]]]; [now apply (utf8_no_nul t V F)|congruence]).
      rewrite removelast_last, utf8_decode_encode by exact V. now rewrite !app_length.
    + rewrite app_nil_r in E. subst u. unfold read_null_term_string, pbind, read_until, lift, from_utf8. rewrite app_nil_r, skipn_all. cbn [until removelast length]. now rewrite Nat.add_0_r.
Qed.
Lemma sfx_byte : sfx read_u8 (fun s n s' => exists b, s = b :: s' /\ n = b2n b).
Proof.
  eapply sfx_conv; [apply sfx_exact; unfold read_u8; ex|]. intros s n s'. cbn beta. split.
  - intros (u & -> & R). apply runs_le_iff in R; [|lia]. destruct R as [L ->]. destruct u as [|b [|c u]]; try discriminate L. exists b. split; [reflexivity|]. cbn [le_dec]. lia.
  - intros (b & -> & ->). exists [b]. split; [reflexivity|]. apply runs_le_iff; [lia|]. split; [reflexivity|]. cbn [le_dec]. lia.
Qed.
Lemma sfx_le k : (k <= 8)%nat -> sfx (read_le k) (fun s n s' => exists u, s = u ++ s' /\ length u = k /\ n = le_dec u).
Proof. intros K. eapply sfx_conv; [apply sfx_exact; ex|]. intros s n s'. cbn beta. split; intros (u & H1 & H2); exists u; (split; [exact H1|]); [now apply runs_le_iff in H2|now apply runs_le_iff]. Qed.
Lemma sfx_bytes n : n <= isize_max -> sfx (read_bytes n) (fun s u s' => s = u ++ s' /\ N.of_nat (length u) = n).
Proof.
  intros M. eapply sfx_conv; [apply sfx_exact; ex|]. intros s u s'. cbn beta. split.
  - intros (v & -> & R). apply runs_bytes_iff in R. destruct R as (-> & L & _). auto.
  - intros [-> L]. exists u. split; [reflexivity|]. apply runs_bytes_iff. auto.
Qed.
Lemma sfx_string n : n <= isize_max -> sfx (read_string n) (fun s t s' => s = utf8_encode t ++ s' /\ valid_text t /\ N.of_nat (length (utf8_encode t)) = n).
Proof.
  intros M. eapply sfx_conv; [unfold read_string; apply sfx_bind; [apply (sfx_bytes n M)|intros a; apply sfx_exact; apply exactp_lift]|]. intros s t s'. cbn beta. split.
  - intros (u & s1 & [-> L] & v & -> & R). apply runs_lift_iff in R. destruct R as [-> E]. unfold from_utf8 in E. destruct (utf8_decode u) as [x|] eqn:D; [|discriminate E]. injection E as ->.
    destruct (utf8_decode_sound _ _ D) as [V <-]. auto.
  - intros (-> & V & L). exists (utf8_encode t), s'. split; [auto|]. exists []. split; [reflexivity|]. apply runs_lift_iff. split; [reflexivity|]. unfold from_utf8. now rewrite utf8_decode_encode.
Qed.

(* ---- switch requests ---- *)
Lemma switch_exact p : forall n s, (starts_byte 0xFE p /\ parse_auth_switch (skipn 1 p) = Ok (n, s)) <-> switches p n s.
Proof.
  intros n s. unfold parse_auth_switch, auth_switch_parser.
  assert (S : sfx (x <- read_null_term_string ;; y <- read_null_term_string ;; ret (x, y)) (fun b r z => exists x, cstr b (fst r) x /\ cstr x (snd r) z)).
  { eapply sfx_conv; [apply sfx_bind; [apply sfx_cstr|intros a; apply sfx_bind; [apply sfx_cstr|intros b; apply sfx_ret]]|]. intros b [x y] z. cbn beta. cbn [fst snd]. split.
    - intros (a & s1 & C1 & c & s2 & C2 & E & ->). injection E as <- <-. eauto.
    - intros (s1 & C1 & C2). exists x, s1. split; [exact C1|]. exists y, z. auto. }
  rewrite (sfx_slice _ _ _ _ S). cbn [fst snd]. split.
  - intros [(d & ->) (z & x & C1 & C2)]. cbn [skipn] in C1. exists d, x, z. auto.
  - intros (x & y & z & -> & C1 & C2). split; [now exists x|]. cbn [skipn]. eauto.
Qed.

(* ---- greetings ---- *)
Lemma bit_cap x k : N.testbit x k = (0 <? N.land x (2 ^ k)).
Proof.
  destruct (N.testbit x k) eqn:T; symmetry.
  - apply N.ltb_lt. assert (H : N.land x (2 ^ k) <> 0); [|lia]. intros H. assert (Y : N.testbit (N.land x (2 ^ k)) k = false) by (rewrite H; apply N.bits_0). rewrite N.land_spec, T, N.pow2_bits_true in Y. discriminate Y.
  - apply N.ltb_ge. assert (H : N.land x (2 ^ k) = 0); [|lia]. apply N.bits_inj. intros i. rewrite N.land_spec, N.bits_0. destruct (N.eq_dec i k) as [->|D]; [now rewrite T|]. rewrite N.pow2_bits_false by congruence. apply Bool.andb_false_r.
Qed.
Ltac sx := repeat (lazymatch goal with
  | |- sfx (pbind _ _) _ => apply sfx_bind; [|intros ?]
  | |- sfx read_null_term_string _ => apply sfx_cstr
  | |- sfx read_u8 _ => apply sfx_byte
  | |- sfx (read_bytes _) _ => apply sfx_bytes; unfold isize_max; lia
  | |- sfx (read_string _) _ => apply sfx_string; unfold isize_max; lia
  | |- sfx read_u32 _ => apply (sfx_le 4); lia
  | |- sfx read_u16 _ => apply (sfx_le 2); lia
  | |- sfx (ret _) _ => apply sfx_ret
  end).
Lemma sfx_if {A} (b : bool) (p q : parser A) R S : sfx p R -> sfx q S -> sfx (if b then p else q) (if b then R else S).
Proof. destruct b; auto. Qed.
Lemma greets_exact p h : parse_handshake p = Ok h <-> greets p h.
Proof.
  unfold parse_handshake, handshake_parser. rewrite sfx_slice; cycle 1.
  { do 11 (apply sfx_bind; [sx|intros ?]). cbv zeta. apply sfx_bind; [apply sfx_if; sx|intros ?]. apply sfx_bind; [apply sfx_if; sx|intros ?]. apply sfx_ret. }
  change cap_secure_connection with (2 ^ 15). change cap_plugin_auth with (2 ^ 19). split.
  - intros (s' & pv & t0 & (b & -> & ->) & sv & t1 & C1 & ci & t2 & (id & -> & L1 & ->) & sc & t3 & C2 & c1 & t4 & (-> & L2) & co & t5 & (bo & -> & ->) & sf & t6 & (us & -> & L3 & ->) &
      c2 & t7 & (-> & L4) & al & t8 & (ba & -> & ->) & fi & t9 & (-> & V & L5) & c3 & t10 & (-> & L6) & H). rewrite <- !bit_cap in H.
    destruct H as (sc2 & t11 & H1 & pn & t12 & H2 & -> & ->).
    assert (Z : exists s2, sc2 = sc ++ s2 /\ if N.testbit (le_dec (c1 ++ c2 ++ c3)) 15 then cstr t10 s2 t11 else s2 = [] /\ t11 = t10).
    { destruct (N.testbit _ 15); [destruct H1 as (a & x & X1 & -> & ->); eauto|]. destruct H1 as [-> ->]. exists []. now rewrite app_nil_r. }
    destruct Z as (s2 & -> & Z). exists b, t0, id, t2, sc, c1, bo, us, c2, ba, (utf8_encode fi), c3, t10, s2, t11, t12.
    cbn [hs_version hs_protocol hs_connection hs_capabilities hs_collation hs_status hs_plugin_length hs_filler hs_scramble hs_plugin].
    repeat (split; [first [reflexivity|assumption|lia]|]). destruct (N.testbit _ 19); [exact H2|exact (proj1 H2)].
  - intros (b & y0 & id & y1 & s1 & c1 & co & sf & c2 & al & fi & c3 & y2 & s2 & y3 & y4 & -> & C1 & C2 & L1 & L2 & L3 & L4 & L5 & L6 & E1 & E2 & E3 & E4 & E5 & E6 & V & E7 & Z & E8 & H).
    destruct h as [pv sv ci sc caps co' st fi' al' pl]. cbn [hs_version hs_protocol hs_connection hs_capabilities hs_collation hs_status hs_plugin_length hs_filler hs_scramble hs_plugin] in *. subst.
    exists (if N.testbit (le_dec (c1 ++ c2 ++ c3)) 19 then y4 else y3). exists (b2n b), y0. split; [eauto|]. exists sv, (id ++ y1). split; [exact C1|]. exists (le_dec id), y1. split; [eauto|].
    exists s1. eexists. split; [exact C2|]. exists c1. eexists. split; [split; [reflexivity|lia]|]. exists (b2n co). eexists. split; [exists co; split; reflexivity|]. exists (le_dec sf). eexists. split; [exists sf; auto|].
    exists c2. eexists. split; [split; [reflexivity|lia]|]. exists (b2n al). eexists. split; [exists al; split; reflexivity|]. exists fi'. eexists. split; [split; [reflexivity|]; split; [exact V|lia]|]. exists c3, y2. split; [split; [reflexivity|lia]|].
    rewrite <- !bit_cap. exists (s1 ++ s2), y3. split.
    + destruct (N.testbit _ 15); [exists s2, y3; auto|]. destruct Z as [-> ->]. now rewrite app_nil_r.
    + destruct (N.testbit _ 19); [exists pl, y4; auto|]. exists pl, y3. auto.
Qed.

(* ---- rows ---- *)
Lemma runs_len_str s t : runs read_len_enc_str s t <-> exists h, s = h ++ utf8_encode t /\ valid_text t /\ lenenc (N.of_nat (length (utf8_encode t))) h /\ N.of_nat (length (utf8_encode t)) <= isize_max.
Proof.
  unfold read_len_enc_str. rewrite runs_bind_iff by (intros; try apply exactp_lenenc; ex). split.
  - intros (s1 & s2 & n & -> & R1 & R2). apply runs_lenenc_iff in R1. unfold read_string in R2. apply runs_bind_iff in R2; [|ex|intros; apply exactp_lift]. destruct R2 as (u & v & a & -> & R2 & R3).
    apply runs_bytes_iff in R2. apply runs_lift_iff in R3. destruct R2 as (-> & L & M), R3 as [-> E]. unfold from_utf8 in E. destruct (utf8_decode u) as [x|] eqn:D; [|discriminate E]. injection E as ->.
    destruct (utf8_decode_sound _ _ D) as [V <-]. exists s1. rewrite app_nil_r. subst n. auto.
  - intros (h & -> & V & L & M). exists h, (utf8_encode t), (N.of_nat (length (utf8_encode t))). split; [reflexivity|]. split; [now apply runs_lenenc_iff|]. unfold read_string.
    apply runs_bind_iff; [ex|intros; apply exactp_lift|]. exists (utf8_encode t), [], (utf8_encode t). rewrite app_nil_r. split; [reflexivity|]. split; [apply runs_bytes_iff; auto|]. apply runs_lift_iff.
    unfold from_utf8. now rewrite utf8_decode_encode.
Qed.
Lemma cells_nil cells : row_cells [] cells <-> cells = [].
Proof.
  split; [|intros ->; constructor]. intros H. inversion H as [E|h t rest cs V L R E E2]; [reflexivity|]. exfalso. destruct h; [exact (lenenc_nonempty _ _ L eq_refl)|discriminate E].
Qed.
Lemma huge_nil : ~ row_huge [].
Proof. intros (a & cells & n & b & E & _). destruct a; discriminate E. Qed.
Lemma cells_first rest cells : row_cells rest cells -> rest <> [] -> N.of_nat (length rest) < 16777216 ->
  exists used t post cs, rest = used ++ post /\ runs read_len_enc_str used t /\ cells = t :: cs /\ row_cells post cs.
Proof.
  intros H NE L. destruct H as [|h t post cs V LE R]; [congruence|]. exists (h ++ utf8_encode t), t, post, cs. split; [apply app_assoc|]. split; [|auto]. apply runs_len_str. exists h.
  rewrite !app_length in L. unfold isize_max. repeat split; auto. lia.
Qed.
Lemma huge_first rest : row_huge rest -> N.of_nat (length rest) < 16777216 ->
  starts_too_long rest \/ exists used t post, rest = used ++ post /\ runs read_len_enc_str used t /\ row_huge post.
Proof.
  intros (a & cells & n & b & -> & C & B) L. change (2 ^ 63) with 9223372036854775808 in B. change (2 ^ 64) with 18446744073709551616 in B. destruct a as [|x a].
  - left. exists n, (n2b 254 :: le_enc 8 n), b. split; [reflexivity|]. split; [constructor; lia|]. unfold too_long. lia.
  - right. destruct (cells_first _ _ C) as (used & t & post & cs & E & R & -> & K); [discriminate|rewrite !app_length in L; lia|]. exists used, t, (post ++ n2b 254 :: le_enc 8 n ++ b).
    rewrite E, <- app_assoc. split; [reflexivity|]. split; [exact R|]. exists post, cs, n, b. split; [reflexivity|]. split; [exact K|exact B].
Qed.
Lemma row_loop fuel : forall pre rest, (length rest < fuel)%nat -> N.of_nat (length rest) < 16777216 ->
  (forall cells, (exists q, pwhile_aux fuel read_len_enc_str (pre ++ rest) (length pre) = Ok (cells, q)) <-> row_cells rest cells) /\
  (pwhile_aux fuel read_len_enc_str (pre ++ rest) (length pre) = Panic <-> row_huge rest).
Proof.
  induction fuel as [|fuel IH]; intros pre rest F L; [lia|]. cbn [pwhile_aux]. destruct rest as [|x rest'].
  { rewrite app_nil_r, Nat.ltb_irrefl. split.
    - intros cells. rewrite cells_nil. split; [intros [q E]; congruence|intros ->; eauto].
    - split; [discriminate|]. intros H. now destruct huge_nil. }
  set (rest := x :: rest') in *. assert (NE : rest <> []) by discriminate.
  destruct (Nat.ltb_spec (length pre) (length (pre ++ rest))) as [_|Q]; [|rewrite app_length in Q; unfold rest in Q; cbn [length] in Q; lia].
  pose proof (pans_len_str pre rest) as PP. unfold pbind at 1 3.
  assert (UN : forall used t post, rest = used ++ post -> runs read_len_enc_str used t -> read_len_enc_str (pre ++ rest) (length pre) = Ok (t, length (pre ++ used))).
  { intros used t post E R. rewrite E, (R pre post). now rewrite app_length. }
  destruct (read_len_enc_str (pre ++ rest) (length pre)) as [[t q]|e| |] eqn:E.
  2-4: assert (NC : forall cells, ~ row_cells rest cells) by (intros cells H; destruct (cells_first _ _ H NE L) as (used & t & post & cs & E1 & R & _); specialize (UN _ _ _ E1 R); discriminate UN).
  2-4: assert (NH : row_huge rest -> starts_too_long rest) by (intros H; destruct (huge_first _ H L) as [S|(used & t & post & E1 & R & _)]; [exact S|]; specialize (UN _ _ _ E1 R); discriminate UN).
  - destruct (runs_uses _ exactp_len_str _ _ _ _ E) as (used & post & Er & R & ->).
    assert (U1 : used <> []). { apply runs_len_str in R. destruct R as (h & -> & _ & LE & _). destruct h; [now apply lenenc_nonempty in LE|discriminate]. }
    assert (LP : (length post < fuel)%nat /\ N.of_nat (length post) < 16777216).
    { assert (length rest = length used + length post)%nat by (rewrite Er; apply app_length). destruct used; [congruence|]. cbn [length] in H. lia. }
    destruct (IH (pre ++ used) post (proj1 LP) (proj2 LP)) as [I1 I2]. rewrite <- app_assoc, <- Er in I1, I2.
    assert (UQ : forall u2 t2 p2, rest = u2 ++ p2 -> runs read_len_enc_str u2 t2 -> u2 = used /\ t2 = t /\ p2 = post).
    { intros u2 t2 p2 E2 R2. pose proof (UN _ _ _ E2 R2) as X. injection X as <- X. rewrite !app_length in X. rewrite E2 in Er. apply app_cut in Er; [|lia]. destruct Er as [-> ->]. auto. }
    split.
    + intros cells. split.
      * intros [k H]. unfold pbind in H. destruct (pwhile_aux fuel _ _ _) as [[cs k2]|?| |] eqn:E2; try discriminate H. unfold ret in H. assert (cells = t :: cs) by congruence. subst cells.
        assert (K : row_cells post cs) by (apply I1; eauto). apply runs_len_str in R. destruct R as (h & Eu & V & LE & _). rewrite Er, Eu, <- app_assoc. now constructor.
      * intros H. destruct (cells_first _ _ H NE L) as (u2 & t2 & p2 & cs & E1 & R2 & -> & K). destruct (UQ _ _ _ E1 R2) as (-> & -> & ->). apply I1 in K. destruct K as [k K]. exists k. unfold pbind. rewrite K. reflexivity.
    + split.
      * intros H. unfold pbind in H. destruct (pwhile_aux fuel _ _ _) as [[cs k2]|?| |] eqn:E2; try discriminate H. destruct (proj1 I2 eq_refl) as (a & cells & n & b & -> & K1 & K2).
        apply runs_len_str in R. destruct R as (h & Eu & V & LE & _). exists (used ++ a), (t :: cells), n, b. split; [rewrite Er; apply app_assoc|]. split; [|exact K2]. rewrite Eu, <- app_assoc. now constructor.
      * intros H. destruct (huge_first _ H L) as [S|(u2 & t2 & p2 & E1 & R2 & K)]; [apply PP in S; discriminate S|]. destruct (UQ _ _ _ E1 R2) as (-> & -> & ->). apply I2 in K. unfold pbind. now rewrite K.
  - split; [intros cells; split; [intros [q H]; discriminate H|intros H; now apply NC in H]|]. split; [discriminate|]. intros H. apply NH, PP in H. discriminate H.
  - split; [intros cells; split; [intros [q H]; discriminate H|intros H; now apply NC in H]|]. split; [|reflexivity]. intros _. destruct (proj1 PP eq_refl) as (n & u & post & Er & LE & T).
    exists [], [], n, post.
    assert (X : u = n2b 254 :: le_enc 8 n /\ 2 ^ 63 <= n < 2 ^ 64). { unfold too_long in T. change (2 ^ 63) with 9223372036854775808. change (2 ^ 64) with 18446744073709551616. clear - LE T. destruct LE as [n H|n H|n H|n H]; try lia. split; [reflexivity|lia]. }
    destruct X as [-> B]. split; [exact Er|]. split; [constructor|exact B].
  - split; [intros cells; split; [intros [q H]; discriminate H|intros H; now apply NC in H]|]. split; [discriminate|]. intros H. apply NH, PP in H. discriminate H.
Qed.
Lemma row_exact bs cells : N.of_nat (length bs) < 16777216 -> parse_row_packet bs = Ok cells <-> row_cells bs cells.
Proof.
  intros L. destruct (row_loop (S (length bs)) [] bs ltac:(lia) L) as [H _]. specialize (H cells). rewrite <- H. unfold parse_row_packet, on_slice, pwhile. cbn [app length].
  destruct (pwhile_aux _ _ bs 0%nat) as [[c q]|?| |]; split; try discriminate; [intros E; exists q; congruence|intros [k E]; congruence|intros [k E]; discriminate..].
Qed.
Lemma row_panics bs : N.of_nat (length bs) < 16777216 -> parse_row_packet bs = Panic <-> row_huge bs.
Proof.
  intros L. destruct (row_loop (S (length bs)) [] bs ltac:(lia) L) as [_ H]. rewrite <- H. unfold parse_row_packet, on_slice, pwhile. cbn [app length].
  destruct (pwhile_aux _ _ bs 0%nat) as [[c q]|?| |]; split; congruence.
Qed.
