(* What can make replicate() panic. *)
From Coq Require Import Sorting.Permutation Strings.String.
From Verif Require Import Base.Tac Base.Bytes Base.Text Base.Res Base.Str Base.Parse Model.Codec Model.Gtid Model.GtidMaria Model.Events Model.Client Model.Commands
  Model.Responses Model.Channel Model.Session Spec.GtidSpec Spec.CodecSpec Spec.CommandSpec Spec.ChannelSpec Spec.SessionSpec Spec.PanicSpec
  Proofs.CodecProofs Proofs.EventSafe Proofs.CommandProofs Proofs.ChannelProofs Proofs.ReplicateProofs Proofs.PlanProofs Proofs.LoginProofs.
Local Open Scope N_scope.

Section Why.
Variables (bl : build) (st : settings).
Definition fine {A} (m : act A) (w : world) : Prop := fst (m w) = Panic -> cause bl st (w_log (snd (m w))).

Lemma fine_bind {A B} (m : act A) (f : A -> act B) w : fine m w -> (forall a w', m w = (Ok a, w') -> fine (f a) w') -> fine (abind m f) w.
Proof.
  unfold fine, abind. intros H K. destruct (m w) as [[a|e| |] w']; cbn [fst snd] in *; try discriminate; [exact (K a w' eq_refl)|]. intros _. exact (H eq_refl).
Qed.
Lemma fine_ret {A} (a : A) w : fine (aret a) w. Proof. discriminate. Qed.
Lemma fine_lift {A} (r : res A) w : (r = Panic -> cause bl st (w_log w)) -> fine (alift r) w. Proof. intros H. exact H. Qed.
Lemma fine_lift_bind {A B} (r : res A) (f : A -> act B) w : (r = Panic -> cause bl st (w_log w)) -> (forall a, r = Ok a -> fine (f a) w) -> fine (abind (alift r) f) w.
Proof. intros H K. apply fine_bind; [exact H|]. intros a w' E. unfold alift in E. assert (w' = w) by congruence. subst w'. apply K. congruence. Qed.
Lemma fine_ret_bind {A B} (a : A) (f : A -> act B) w : fine (f a) w -> fine (abind (aret a) f) w. Proof. intros H. exact H. Qed.
Lemma fine_assoc {A B C} (m : act A) (g : A -> act B) (f : B -> act C) w : fine (abind m (fun a => abind (g a) f)) w -> fine (abind (abind m g) f) w.
Proof. unfold fine, abind. destruct (m w) as [[a|e| |] w']; intros H; exact H. Qed.
Lemma fine_write_bind {B} p s (f : unit -> act B) w : N.of_nat (length p) < 16777216 -> fine (f tt) (World (w_client w) (w_in w) (w_log w ++ [Sent p s])) -> fine (abind (a_write p s) f) w.
Proof. intros L H. unfold fine. rewrite (abind_ok _ _ _ _ _ (a_write_ok p s w L)). exact H. Qed.
Lemma fine_write p s w : N.of_nat (length p) < 16777216 -> fine (a_write p s) w.
Proof. intros L. unfold fine. rewrite (a_write_ok p s w L). discriminate. Qed.
Lemma fine_read_bind {B} (f : packet -> act B) w :
  (forall p cs, snd p < 256 -> fine (f p) (World (w_client w) cs (w_log w ++ [got p]))) -> fine (abind a_read f) w.
Proof.
  intros H. unfold fine, abind. destruct (a_read w) as [r w'] eqn:E. destruct (a_read_log w r w' E) as [K [(p & -> & L)|[X L]]].
  - specialize (H p (w_in w')). unfold a_read in E. destruct (read_packet (w_in w)) as [[[q s]|?| |] cs] eqn:R; try discriminate E. assert (p = (q, s)) by congruence. subst p.
    specialize (H (read_packet_seq _ _ _ _ R)). rewrite <- K in H. cbn [w_client] in H. rewrite <- L in H. destruct w' as [c i l]. exact H.
  - unfold a_read in E. destruct (read_packet (w_in w)) as [[[p s]|e| |] cs] eqn:R; try (inv E; cbn [fst]; try discriminate; exfalso; eapply X; reflexivity).
    exfalso. revert R. clear. unfold read_packet. assert (G : forall n cs acc, fst (recv_exact n cs acc) <> Panic).
    { intros n is. revert n. induction is as [|[bs| |] is IH]; intros n acc; destruct n as [|n]; cbn [recv_exact]; try discriminate. destruct (_ <=? _)%nat; [apply IH|discriminate]. }
    pose proof (G 4%nat (w_in w) []) as G1. destruct (recv_exact 4 (w_in w) []) as [[h|?| |] c]; try discriminate; [|now destruct G1].
    pose proof (G (N.to_nat (le_dec (firstn 3 h))) c []) as G2. destruct (recv_exact _ c []) as [[x|?| |] c']; try discriminate. now destruct G2.
Qed.
Lemma fine_client_bind {B} (f : client -> act B) w : fine (f (w_client w)) w -> fine (abind a_client f) w. Proof. intros H. exact H. Qed.
Lemma fine_set_bind {B} c (f : unit -> act B) w : fine (f tt) (World c (w_in w) (w_log w)) -> fine (abind (a_set_client c) f) w. Proof. intros H. exact H. Qed.
Lemma fine_set c w : fine (a_set_client c) w. Proof. discriminate. Qed.

(* ---- parsers ---- *)
Lemma byte_at_panic p i : byte_at p i = Panic -> (length p <= i)%nat.
Proof. unfold byte_at. destruct (nth_error p i) eqn:E; [discriminate|]. intros _. now apply nth_error_None. Qed.
Lemma got_empty w cs c p : (length (fst p) <= 0)%nat -> cause bl st (w_log (World c cs (w_log w ++ [got p]))).
Proof. destruct p as [[|b p] s]; cbn [fst length]; [|lia]. intros _. now apply (ca_empty _ _ _ (w_log w) s). Qed.
Lemma error_parse_panic bs : parse_error_packet bs <> Panic.
Proof.
  unfold parse_error_packet, on_slice. assert (S : psafe error_packet_parser).
  { unfold error_packet_parser. apply psafe_bind; [apply psafe_read_le; unfold isize_max; lia|]. intros c. apply psafe_bind; [apply psafe_to_string|]. intros [|x m]; [apply psafe_ret|]. destruct (x =? 35); apply psafe_ret. }
  specialize (S bs 0%nat). destruct (error_packet_parser bs 0%nat) as [[? ?]|?| |]; discriminate || contradiction.
Qed.
Lemma check_panic p m : check_error_packet p m = Panic -> (length p <= 0)%nat.
Proof.
  unfold check_error_packet. destruct (byte_at p 0) eqn:E; cbn [rbind]; try discriminate; [|intros _; now apply byte_at_panic].
  destruct (_ =? _); [|discriminate]. pose proof (error_parse_panic (skipn 1 p)) as K. destruct (parse_error_packet _) as [?|?| |]; cbn [rbind]; try discriminate. congruence.
Qed.
Lemma check_nonempty p m u : check_error_packet p m = Ok u -> p <> [].
Proof. unfold check_error_packet. intros E ->. discriminate E. Qed.
Ltac psn := repeat (lazymatch goal with
  | |- psafe (pbind _ _) => apply psafe_bind; [|intros ?]
  | |- psafe (ret _) => apply psafe_ret
  | |- psafe (if ?b then _ else _) => destruct b
  | |- psafe (let x := _ in _) => cbv zeta
  | |- psafe read_null_term_string => apply psafe_null_term
  | |- psafe (read_string _) => apply psafe_bind; [apply psafe_read_bytes; unfold isize_max; lia|intros; apply psafe_lift, from_utf8_returns]
  | |- psafe (read_bytes _) => apply psafe_read_bytes; unfold isize_max; lia
  | |- psafe _ => apply psafe_read_le; unfold isize_max; lia
  end).
Lemma on_slice_panic {A} (p : parser A) bs : psafe p -> on_slice p bs <> Panic.
Proof. intros S. unfold on_slice. specialize (S bs 0%nat). destruct (p bs 0%nat) as [[? ?]|?| |]; discriminate || contradiction. Qed.
Lemma handshake_panic bs : parse_handshake bs <> Panic.
Proof. apply on_slice_panic. unfold handshake_parser. psn. Qed.
Lemma switch_panic bs : parse_auth_switch bs <> Panic.
Proof. apply on_slice_panic. unfold auth_switch_parser. psn. Qed.
Lemma plugin_panic n : get_auth_plugin n <> Panic.
Proof. unfold get_auth_plugin. repeat destruct (text_eqb _ _); discriminate. Qed.
Lemma checksum_panic t : checksum_from_name t <> Panic.
Proof. unfold checksum_from_name. repeat destruct (text_eqb _ _); discriminate. Qed.
Lemma plugin_short n p : get_auth_plugin n = Ok p -> N.of_nat (length (utf8_encode n)) < 1000000.
Proof.
  unfold get_auth_plugin. destruct (text_eqb_spec n native_name) as [->|_]; [intros _; reflexivity|].
  destruct (text_eqb_spec n caching_name) as [->|_]; [intros _; reflexivity|discriminate].
Qed.

(* ---- scrambles ---- *)
Lemma until_cases d bs : (~ In d bs /\ until d bs = bs) \/ exists v z, bs = v ++ d :: z /\ ~ In d v /\ until d bs = v ++ [d].
Proof.
  induction bs as [|b bs IH]; [left; auto|]. cbn [until]. destruct (byte_eqb_spec b d) as [->|N].
  - right. exists [], bs. auto.
  - destruct IH as [[H1 H2]|(v & z & -> & H2 & H3)].
    + left. split; [intros [X|X]; auto|now rewrite H2].
    + right. exists (b :: v), z. split; [reflexivity|]. split; [intros [X|X]; auto|now rewrite H3].
Qed.
(* the string read, and what is left *)
Lemma null_term_inv bs t buf pos pos' : read_null_term_string buf pos = Ok (t, pos') -> skipn pos buf = bs ->
  (~ In (n2b 0) bs /\ skipn pos' buf = [] /\ utf8_encode t = removelast bs) \/
  exists v z, bs = v ++ n2b 0 :: z /\ ~ In (n2b 0) v /\ utf8_encode t = v /\ skipn pos' buf = z.
Proof.
  unfold read_null_term_string, pbind, read_until, lift, from_utf8. intros E S. rewrite S in E.
  destruct (utf8_decode (removelast (until (n2b 0) bs))) as [u|] eqn:D; [|discriminate E]. assert (u = t /\ pos' = (pos + length (until (n2b 0) bs))%nat) as [-> ->] by (split; congruence).
  destruct (utf8_decode_sound _ _ D) as [_ D']. destruct (until_cases (n2b 0) bs) as [[H1 H2]|(v & z & -> & H2 & H3)].
  - left. rewrite H2 in *. split; [exact H1|]. split; [|exact D']. rewrite skipn_plus, S. apply skipn_all2. lia.
  - right. exists v, z. rewrite H3 in *. rewrite removelast_last in D'. split; [reflexivity|]. split; [exact H2|]. split; [exact D'|].
    rewrite skipn_plus, S. rewrite skipn_app, skipn_all2 by (rewrite app_length; cbn [length]; lia). rewrite app_length. cbn [length app].
    replace (length v + 1 - length v)%nat with 1%nat by lia. reflexivity.
Qed.
Lemma encode_nil t : utf8_encode t = [] -> t = [].
Proof. destruct t as [|c t]; [reflexivity|]. intros H. exfalso. cbn [utf8_encode flat_map] in H. apply app_eq_nil in H. destruct H as [H _]. revert H. unfold utf8_char. repeat destruct (_ <? _); discriminate. Qed.
Definition post {A} (p : parser A) (P : A -> Prop) : Prop := forall buf pos a q, p buf pos = Ok (a, q) -> P a.
Lemma post_bind {A B} (p : parser A) (f : A -> parser B) P : (forall a, post (f a) P) -> post (pbind p f) P.
Proof. intros H buf pos b q. unfold pbind. destruct (p buf pos) as [[a k]|?| |]; try discriminate. apply H. Qed.
Lemma post_ret {A} (a : A) (P : A -> Prop) : P a -> post (ret a) P.
Proof. intros H buf pos b q E. unfold ret in E. congruence. Qed.
Lemma post_ret_bind {A B} (a : A) (f : A -> parser B) P : post (f a) P -> post (pbind (ret a) f) P.
Proof. intros H. exact H. Qed.
Lemma post_assoc {A B C} (m : parser A) (g : A -> parser B) (f : B -> parser C) P : post (pbind m (fun a => pbind (g a) f)) P -> post (pbind (pbind m g) f) P.
Proof. intros H buf pos c q. specialize (H buf pos c q). unfold pbind in *. revert H. destruct (m buf pos) as [[a k]|?| |]; intros H; try discriminate. exact H. Qed.
Lemma hello_scramble bs hs : parse_handshake bs = Ok hs -> hs_scramble hs = [] -> hello_no_scramble bs.
Proof.
  unfold parse_handshake, on_slice. destruct (handshake_parser bs 0%nat) as [[h q]|?| |] eqn:E; try discriminate. intros X Z. assert (h = hs) by congruence. subst h. clear X.
  unfold handshake_parser in E. unfold pbind at 1 in E. destruct (read_u8 bs 0%nat) as [[pv p1]|?| |] eqn:E1; try discriminate E.
  assert (B1 : exists b r, bs = b :: r /\ p1 = 1%nat).
  { destruct bs as [|b r]; [discriminate E1|]. exists b, r. split; [reflexivity|]. unfold read_u8, read_le, pbind, read_bytes, rbind, alloc, ret in E1. change (isize_max <? N.of_nat 1) with false in E1. cbv beta iota in E1.
    destruct (_ <? _) in E1; [discriminate E1|]. change (0 + N.to_nat (N.of_nat 1))%nat with 1%nat in E1. congruence. }
  destruct B1 as (b & r & -> & ->). unfold pbind at 1 in E. destruct (read_null_term_string (b :: r) 1%nat) as [[sv p2]|?| |] eqn:E2; try discriminate E.
  unfold pbind at 1 in E. destruct (read_u32 (b :: r) p2) as [[ci p3]|?| |] eqn:E3; try discriminate E.
  assert (B3 : exists c1 c2 c3 c4 s, skipn p2 (b :: r) = c1 :: c2 :: c3 :: c4 :: s /\ skipn p3 (b :: r) = s).
  { unfold read_u32, read_le, pbind, read_bytes, rbind, alloc, ret in E3. change (isize_max <? N.of_nat 4) with false in E3. cbv beta iota in E3.
    destruct (N.ltb_spec (N.of_nat (length (b :: r) - p2)) (N.of_nat 4)); [discriminate E3|]. assert (p3 = (p2 + 4)%nat) by (change (N.to_nat (N.of_nat 4)) with 4%nat in E3; congruence). subst p3.
    pose proof (skipn_length p2 (b :: r)) as L. destruct (skipn p2 (b :: r)) as [|c1 [|c2 [|c3 [|c4 s]]]] eqn:S; cbn [length] in L; try (cbn [length] in *; lia).
    exists c1, c2, c3, c4, s. split; [reflexivity|]. rewrite skipn_plus, S. reflexivity. }
  destruct B3 as (c1 & c2 & c3 & c4 & s & S2 & S3).
  destruct (null_term_inv r sv (b :: r) 1 p2 E2 eq_refl) as [(H1 & H2 & _)|(v & z & -> & H2 & _ & H4)]; [rewrite H2 in S2; discriminate S2|].
  rewrite S2 in H4. subst z.
  unfold pbind at 1 in E. destruct (read_null_term_string _ p3) as [[sc p4]|?| |] eqn:E4; try discriminate E.
  destruct (null_term_inv s sc _ p3 p4 E4 S3) as [(H1 & H5 & _)|(v2 & z & -> & H6 & H7 & H8)].
  - exfalso. unfold pbind at 1 in E. unfold read_bytes at 1, rbind at 1, alloc at 1 in E. change (isize_max <? 2) with false in E. cbv beta iota in E.
    assert (L : (length (b :: v ++ n2b 0 :: c1 :: c2 :: c3 :: c4 :: s) <= p4)%nat).
    { pose proof (skipn_length p4 (b :: v ++ n2b 0 :: c1 :: c2 :: c3 :: c4 :: s)) as L. rewrite H5 in L. change (length (@nil byte)) with 0%nat in L. lia. }
    destruct (N.ltb_spec (N.of_nat (length (b :: v ++ n2b 0 :: c1 :: c2 :: c3 :: c4 :: s) - p4)) 2); [discriminate E|lia].
  - assert (sc = []).
    { assert (P : exists s2, hs_scramble hs = sc ++ s2).
      { revert E. clear. match goal with |- ?p ?buf ?pos = _ -> _ => set (T := p) end. assert (H : post T (fun h => exists s2, hs_scramble h = sc ++ s2)).
        { unfold T. do 7 (apply post_bind; intros ?). cbv zeta. destruct (0 <? N.land (le_dec _) cap_secure_connection).
          - apply post_assoc. apply post_bind. intros s2. apply post_ret_bind. apply post_bind. intros pn. apply post_ret. now exists s2.
          - apply post_ret_bind. apply post_bind. intros pn. apply post_ret. exists []. symmetry. apply app_nil_r. }
        intros E. exact (H _ _ _ _ E). }
      destruct P as (s2 & P). rewrite Z in P. symmetry in P. now apply app_eq_nil in P. }
    subst sc. cbn in H7. subst v2. exists b, v, c1, c2, c3, c4, z. auto.
Qed.
Lemma switch_scramble p n : starts_byte 0xFE p -> parse_auth_switch (skipn 1 p) = Ok (n, []) -> switch_no_scramble p.
Proof.
  intros F E. split; [exact F|]. set (bs := skipn 1 p) in *. unfold parse_auth_switch, on_slice, auth_switch_parser in E. unfold pbind at 1 in E.
  destruct (read_null_term_string bs 0%nat) as [[n' p1]|?| |] eqn:E1; try discriminate E.
  unfold pbind at 1 in E. destruct (read_null_term_string bs p1) as [[d p2]|?| |] eqn:E2; try discriminate E. unfold ret in E. assert (d = []) by congruence. subst d.
  destruct (null_term_inv bs n' bs 0 p1 E1 eq_refl) as [(H1 & H2 & _)|(v & z & Eb & H2 & _ & H4)].
  - exists bs, []. rewrite app_nil_r. auto.
  - exists v, (n2b 0 :: z). split; [exact Eb|]. split; [exact H2|].
    destruct (null_term_inv z [] bs p1 p2 E2 H4) as [(_ & _ & H5)|(v2 & z2 & -> & _ & H6 & _)].
    + cbn in H5. destruct z as [|x [|y z]]; [auto|right; right; left; eauto|discriminate H5].
    + cbn in H6. subst v2. right. right. right. exists z2. reflexivity.
Qed.

(* ---- rows ---- *)
Lemma read_bytes_inv n buf pos bs q : read_bytes n buf pos = Ok (bs, q) -> bs = firstn (N.to_nat n) (skipn pos buf) /\ q = (pos + N.to_nat n)%nat /\ n <= N.of_nat (length buf - pos).
Proof. unfold read_bytes, alloc, rbind. destruct (_ <? _); [discriminate|]. destruct (N.ltb_spec (N.of_nat (length buf - pos)) n); [discriminate|]. intros E. repeat split; try congruence. Qed.
Lemma len_str_inv buf pos t q : read_len_enc_str buf pos = Ok (t, q) ->
  exists n h, lenenc n h /\ skipn pos buf = h ++ utf8_encode t ++ skipn q buf /\ N.of_nat (length (utf8_encode t)) = n /\ (pos < q)%nat.
Proof.
  unfold read_len_enc_str, pbind. destruct (read_len_enc_num buf pos) as [[n p1]|?| |] eqn:E1; try discriminate. destruct (lenenc_inv _ _ _ _ E1) as (h & H1 & H2 & ->).
  unfold read_string, pbind, lift, from_utf8. destruct (read_bytes n buf _) as [[bs p2]|?| |] eqn:E2; try discriminate. destruct (read_bytes_inv _ _ _ _ _ E2) as (B1 & B2 & B3).
  destruct (utf8_decode bs) as [u|] eqn:D; [|discriminate]. intros E. assert (u = t /\ p2 = q) as [-> ->] by (split; congruence). destruct (utf8_decode_sound _ _ D) as [_ ->].
  exists n, h. split; [exact H1|]. assert (LH : (length h <> 0)%nat) by (pose proof (lenenc_nonempty _ _ H1); destruct h; [congruence|discriminate]).
  assert (LB : N.of_nat (length bs) = n) by (rewrite B1, firstn_length, skipn_length; lia). split; [|split; [exact LB|lia]].
  rewrite <- (firstn_skipn (length h) (skipn pos buf)), H2. f_equal. rewrite <- (firstn_skipn (N.to_nat n) (skipn (length h) _)). rewrite <- skipn_plus, <- B1. f_equal. rewrite B2, <- skipn_plus. reflexivity.
Qed.
Lemma len_str_panic buf pos : read_len_enc_str buf pos = Panic -> huge_length buf.
Proof.
  unfold read_len_enc_str, pbind. pose proof (psafe_lenenc buf pos) as S. destruct (read_len_enc_num buf pos) as [[n p1]|?| |] eqn:E1; try discriminate; [|contradiction].
  destruct (lenenc_inv _ _ _ _ E1) as (h & H1 & H2 & _). unfold read_string, pbind, lift. destruct (read_bytes n buf p1) as [[bs p2]|?| |] eqn:E2; try discriminate.
  - pose proof (from_utf8_returns bs) as K. destruct (from_utf8 bs); discriminate || contradiction.
  - intros _. unfold read_bytes, alloc, rbind in E2. destruct (N.ltb_spec isize_max n) as [L|]; [|destruct (_ <? _) in E2; discriminate E2]. unfold isize_max in L.
    destruct H1 as [n H|n H|n H|n H]; try lia. exists (firstn pos buf), n, (skipn (length (n2b 254 :: le_enc 8 n)) (skipn pos buf)).
    split; [|change (2 ^ 63) with 9223372036854775808; change (2 ^ 64) with 18446744073709551616; lia].
    rewrite <- (firstn_skipn pos buf) at 1. f_equal. rewrite <- (firstn_skipn (length (n2b 254 :: le_enc 8 n)) (skipn pos buf)) at 1. rewrite H2. reflexivity.
Qed.
Lemma row_panic bs : parse_row_packet bs = Panic -> huge_length bs.
Proof.
  unfold parse_row_packet, on_slice, pwhile. destruct (pwhile_aux _ _ bs 0%nat) as [[? ?]|?| |] eqn:E; try discriminate. intros _. revert E. generalize (S (length bs)) 0%nat.
  intros fuel. induction fuel as [|fuel IH]; intros pos; cbn [pwhile_aux]; (destruct (pos <? length bs)%nat; [|discriminate]); [discriminate|].
  unfold pbind. destruct (read_len_enc_str bs pos) as [[t q]|?| |] eqn:E; try discriminate; [|intros _; exact (len_str_panic _ _ E)].
  destruct (pwhile_aux fuel _ bs q) as [[? ?]|?| |] eqn:E2; try discriminate. intros _. exact (IH _ E2).
Qed.
Lemma row_inv bs cells : parse_row_packet bs = Ok cells -> bs <> [] ->
  exists c r n h rest, cells = c :: r /\ bs = h ++ utf8_encode c ++ rest /\ lenenc n h /\ N.of_nat (length (utf8_encode c)) = n /\ (r = [] -> rest = []).
Proof.
  unfold parse_row_packet, on_slice, pwhile. intros E NE. destruct (pwhile_aux _ _ bs 0%nat) as [[x k]|?| |] eqn:E1; try discriminate E. assert (x = cells) by congruence. subst x. clear E.
  destruct bs as [|b bs]; [congruence|]. cbn [pwhile_aux] in E1. change (0 <? length (b :: bs))%nat with true in E1. cbv beta iota in E1. unfold pbind at 1 in E1.
  destruct (read_len_enc_str (b :: bs) 0%nat) as [[c q]|?| |] eqn:E2; try discriminate E1. unfold pbind at 1 in E1.
  destruct (pwhile_aux (length (b :: bs)) _ _ q) as [[r k2]|?| |] eqn:E3; try discriminate E1. unfold ret in E1. assert (cells = c :: r) by congruence. subst cells.
  destruct (len_str_inv _ _ _ _ E2) as (n & h & H1 & H2 & H3 & H4). exists c, r, n, h, (skipn q (b :: bs)). split; [reflexivity|]. split; [exact H2|]. split; [exact H1|]. split; [exact H3|].
  intros ->. cbn [length pwhile_aux] in E3. destruct (Nat.ltb_spec q (S (length bs))) as [L|L]; [|apply skipn_all2; exact L].
  exfalso. unfold pbind in E3. destruct (read_len_enc_str _ q) as [[? ?]|?| |]; try discriminate E3. destruct (pwhile_aux _ _ _ _) as [[? ?]|?| |]; discriminate E3.
Qed.

(* ---- result sets ---- *)
Definition rows_got (l : list io) (rows : list (list text)) (l' : list io) : Prop :=
  exists cols e1 rps e2, l' = l ++ map got (cols ++ e1 :: rps ++ [e2]) /\ starts_byte 0xFE (fst e1) /\ starts_byte 0xFE (fst e2) /\
    Forall2 (fun p row => parse_row_packet (fst p) = Ok row /\ fst p <> []) rps rows.
Lemma byte_at_starts p b : byte_at p 0 = Ok b -> (b =? resp_eof) = true -> starts_byte 0xFE p.
Proof.
  unfold byte_at. destruct p as [|x p]; [discriminate|]. cbn [nth_error]. intros E H. apply N.eqb_eq in H. exists p. f_equal.
  assert (E' : b2n x = 0xFE) by (unfold resp_eof in H; congruence). rewrite <- E'. symmetry. apply n2b_b2n.
Qed.
Lemma skip_fine fuel : forall w, fine (skip_columns fuel) w.
Proof.
  induction fuel as [|fuel IH]; intros w; [discriminate|]. cbn [skip_columns]. apply fine_read_bind. intros p cs SQ. apply fine_lift_bind; [intros H; now apply got_empty, byte_at_panic|].
  intros b E. destruct (b =? resp_eof); [apply fine_ret|apply IH].
Qed.
Lemma a_read_inv w p w' : a_read w = (Ok p, w') -> w_log w' = w_log w ++ [got p].
Proof. intros E. destruct (a_read_log w _ w' E) as [_ [(q & Q & L)|[X _]]]; [congruence|now destruct (X p)]. Qed.
Lemma skip_got fuel : forall w u w', skip_columns fuel w = (Ok u, w') -> exists cols e, w_log w' = w_log w ++ map got (cols ++ [e]) /\ starts_byte 0xFE (fst e).
Proof.
  induction fuel as [|fuel IH]; intros w u w' E; [discriminate E|]. cbn [skip_columns] in E. unfold abind at 1 in E. destruct (a_read w) as [[p|?| |] w1] eqn:E1; try discriminate E.
  apply a_read_inv in E1. unfold abind, alift in E. destruct (byte_at (fst p) 0) as [b|?| |] eqn:B; try discriminate E. destruct (b =? resp_eof) eqn:C.
  - unfold aret in E. assert (w' = w1) by congruence. subst w'. exists [], p. split; [exact E1|eapply byte_at_starts; eauto].
  - destruct (IH _ _ _ E) as (cols & e & L & S). exists (p :: cols), e. split; [|exact S]. rewrite L, E1, <- app_assoc. reflexivity.
Qed.
Lemma rows_fine fuel : forall acc w, fine (read_rows fuel acc) w.
Proof.
  induction fuel as [|fuel IH]; intros acc w; [discriminate|]. cbn [read_rows]. apply fine_read_bind. intros p cs SQ. apply fine_lift_bind; [intros H; apply got_empty; eapply check_panic; eauto|].
  intros u _. apply fine_lift_bind; [intros H; now apply got_empty, byte_at_panic|].
  intros b E. destruct (b =? resp_eof); [apply fine_ret|]. apply fine_lift_bind; [|intros; apply IH].
  intros H. apply (ca_cell _ _ _ (w_log w) (fst p) (snd p)); [reflexivity|]. now apply row_panic.
Qed.
Lemma rows_got_from fuel : forall acc w rows w', read_rows fuel acc w = (Ok rows, w') ->
  exists rps e more, rows = acc ++ more /\ w_log w' = w_log w ++ map got (rps ++ [e]) /\ starts_byte 0xFE (fst e) /\ Forall2 (fun p row => parse_row_packet (fst p) = Ok row /\ fst p <> []) rps more.
Proof.
  induction fuel as [|fuel IH]; intros acc w rows w' E; [discriminate E|]. cbn [read_rows] in E. unfold abind at 1 in E. destruct (a_read w) as [[p|?| |] w1] eqn:E1; try discriminate E.
  apply a_read_inv in E1. unfold abind, alift in E. destruct (check_error_packet _ _) as [?|?| |] eqn:CK; try discriminate E. destruct (byte_at (fst p) 0) as [b|?| |] eqn:B; try discriminate E. destruct (b =? resp_eof) eqn:C.
  - unfold aret in E. assert (w' = w1 /\ rows = acc) as [-> ->] by (split; congruence). exists [], p, []. split; [now rewrite app_nil_r|]. split; [exact E1|]. split; [eapply byte_at_starts; eauto|constructor].
  - destruct (parse_row_packet (fst p)) as [row|?| |] eqn:P; try discriminate E.
    destruct (IH _ _ _ _ E) as (rps & e & more & R & L & S & F). exists (p :: rps), e, (row :: more). split; [rewrite R, <- app_assoc; reflexivity|]. split; [rewrite L, E1, <- app_assoc; reflexivity|].
    split; [exact S|]. constructor; [|exact F]. split; [exact P|eapply check_nonempty; eauto].
Qed.
Lemma fine_result_set {B} (f : list (list text) -> act B) w : (forall rows w', w_client w' = w_client w -> rows_got (w_log w) rows (w_log w') -> fine (f rows) w') -> fine (abind read_result_set f) w.
Proof.
  intros H. apply fine_bind.
  - unfold read_result_set. apply fine_read_bind. intros p cs SQ. apply fine_lift_bind; [intros X; apply got_empty; eapply check_panic; eauto|]. intros u _.
    apply fine_bind; [apply skip_fine|]. intros u' w' _. apply rows_fine.
  - intros rows w' E. apply H; [pose proof (kp_result_set w) as K; now rewrite E in K|].
    unfold read_result_set in E. unfold abind at 1 in E. destruct (a_read w) as [[p|?| |] w1] eqn:E1; try discriminate E. apply a_read_inv in E1. unfold abind at 1, alift in E.
    destruct (check_error_packet _ _) as [?|?| |]; try discriminate E. unfold abind in E. destruct (skip_columns _ w1) as [[u|?| |] w2] eqn:E2; try discriminate E.
    destruct (skip_got _ _ _ _ E2) as (cols & e1 & L2 & S2). destruct (rows_got_from _ _ _ _ _ E) as (rps & e2 & more & -> & L3 & S3 & F).
    exists (p :: cols), e1, rps, e2. split; [|auto]. rewrite L3, L2, E1, <- !app_assoc. cbn [app map]. rewrite !map_app, <- !app_assoc. cbn [app map]. rewrite map_app. reflexivity.
Qed.

(* ---- login ---- *)
Variable ev : env.
Hypothesis HH : hashes ev.
Hypothesis NF : names_fit st.
Hypothesis RS : forall k m, rsa (e_crypto ev) k m <> Panic /\ forall e, rsa (e_crypto ev) k m = Ok e -> N.of_nat (length e) < 16777216.

Definition scrambled (scr : text) (l : list io) : Prop := scr = [] -> exists q s, In (Received q s) l /\ (hello_no_scramble q \/ switch_no_scramble q).
Lemma scrambled_more scr l l' : scrambled scr l -> scrambled scr (l ++ l').
Proof. intros H Z. destruct (H Z) as (q & s & I & K). exists q, s. split; [apply in_or_app; auto|exact K]. Qed.
Lemma next_panic l p : uadd 256 bl (snd p) 1 = Panic -> snd p < 256 -> cause bl st (l ++ [got p]).
Proof.
  unfold uadd. destruct (N.ltb_spec (snd p + 1) 256); [discriminate|]. destruct bl eqn:B; [|discriminate]. intros _ H1. apply (ca_number _ _ _ l (fst p)); [reflexivity|].
  unfold got. do 3 f_equal. lia.
Qed.

Lemma sha_fine p scr s w k : w_log w = k ++ [got p] -> scrambled scr (w_log w) -> fine (authenticate_sha_256 bl ev st (fst p) scr s false) w.
Proof.
  intros L SC. unfold authenticate_sha_256. apply fine_lift_bind.
  { intros H. apply byte_at_panic in H. destruct p as [[|b p] q]; cbn [fst length] in H; [|lia]. rewrite L. now apply (ca_empty _ _ _ k q). }
  intros b0 E0. assert (D : forall f : bool -> act unit, (forall d, fine (f d) w) -> fine (abind (if b0 =? 1 then b1 <== alift (byte_at (fst p) 1) ;; aret (b1 =? 3) else aret false) f) w).
  { intros f H. destruct (N.eqb_spec b0 1) as [->|_]; [|apply fine_ret_bind, H]. apply fine_assoc, fine_lift_bind; [|intros; apply fine_ret_bind, H].
    intros Z. apply byte_at_panic in Z. destruct p as [[|b [|c p]] q]; cbn [fst length] in *; try lia; [discriminate E0|].
    rewrite L. apply (ca_short _ _ _ k q). unfold got. cbn [fst snd]. do 3 f_equal. unfold byte_at in E0. cbn [nth_error] in E0. assert (X : b2n b = 1) by congruence. rewrite <- X, n2b_b2n. reflexivity. }
  apply D. intros [|]; [apply fine_ret|]. cbv zeta. apply fine_write_bind; [reflexivity|]. apply fine_read_bind. intros r cs SQ. cbn [w_client w_in w_log].
  apply fine_lift_bind; [intros H; apply check_panic in H; exact (got_empty (World (w_client w) (w_in w) (w_log w ++ [Sent [n2b 2] s])) cs (w_client w) r H)|]. intros u _.
  apply fine_lift_bind.
  { intros H. assert (Z : scr = []).
    { apply encode_nil. destruct (utf8_encode scr); [reflexivity|]. exfalso. unfold xor_bytes in H. destruct (utf8_encode (s_password st) ++ [n2b 0]); discriminate H. }
    cbn [w_log]. rewrite <- app_assoc. destruct (scrambled_more _ _ ([Sent [n2b 2] s] ++ [got r]) SC Z) as (q & sq & I & [K|K]); [eapply ca_hello|eapply ca_switch]; eauto. }
  intros x _. apply fine_lift_bind; [intros H; now destruct (RS (skipn 1 (fst r)) x)|]. intros e E. apply fine_lift_bind; [intros H; now apply next_panic|]. intros n _.
  apply fine_write_bind; [destruct (RS (skipn 1 (fst r)) x) as [_ K]; now apply K|]. apply fine_read_bind. intros r2 cs2 _. cbn [w_client w_in w_log]. apply fine_lift.
  intros H. apply check_panic in H. destruct r2 as [[|b r2] q]; cbn [fst length] in H; [|lia]. eapply ca_empty. reflexivity.
Qed.
Lemma switch_fine p sw s w k : w_log w = k ++ [got p] -> scrambled (snd sw) (w_log w) -> fine (handle_switch bl ev st sw s false) w.
Proof.
  intros L SC. unfold handle_switch. apply fine_lift_bind; [intros H; now destruct (plugin_panic (fst sw))|]. intros pl PL.
  destruct (HH pl) as (n & Hn & Kn). assert (X : exists e, auth_switch_command (e_crypto ev) (s_password st) (snd sw) pl = Ok e /\ length e = n).
  { unfold auth_switch_command, hash_of in *. destruct pl; cbn [encrypt_password]; destruct (native_ok _ n (s_password st) (snd sw) Hn) as (r & E1 & E2 & _); try lia; eauto. }
  destruct X as (e & E & LE). apply fine_lift_bind; [rewrite E; discriminate|]. intros c C. assert (c = e) by congruence. subst c. apply fine_write_bind; [lia|].
  apply fine_read_bind. intros r cs SQ. cbn [w_client w_in w_log].
  apply fine_lift_bind; [intros H; apply check_panic in H; destruct r as [[|b r] q]; cbn [fst length] in H; [|lia]; eapply ca_empty; reflexivity|]. intros u _.
  destruct (text_eqb (fst sw) caching_name); [|apply fine_ret]. apply fine_lift_bind; [intros H; now apply next_panic|]. intros q _. eapply sha_fine; [cbn [w_log]; reflexivity|].
  cbn [w_log]. now do 2 apply scrambled_more.
Qed.
Lemma authenticate_fine p hs pl s w k : w_log w = k ++ [got p] -> parse_handshake (fst p) = Ok hs -> get_auth_plugin (hs_plugin hs) = Ok pl -> fine (authenticate bl ev st hs pl s) w.
Proof.
  intros L HS PL. assert (SC : scrambled (hs_scramble hs) (w_log w)).
  { intros Z. exists (fst p), (snd p). split; [rewrite L; apply in_or_app; right; left; reflexivity|]. left. eapply hello_scramble; eauto. }
  unfold authenticate. destruct (s_ssl st) eqn:SSL; [|match goal with |- fine ?m ?w => unfold fine; intros _; apply ca_ssl; congruence end..].
  cbn [ssl_code]. change (0 =? 0) with true. cbv iota. apply fine_ret_bind.
  destruct (HH pl) as (n & Hn & Kn). destruct (login_sent (e_crypto ev) (s_user st) (s_password st) (s_database st) (hs_scramble hs) pl (hs_plugin hs) utf8_mb4_general_ci n) as (c & C); [intros m; specialize (Hn m); destruct pl; exact Hn|exact Kn|].
  apply fine_lift_bind; [rewrite C; discriminate|]. intros c' C'. assert (c' = c) by congruence. subst c'.
  apply fine_write_bind. { destruct NF as [N1 N2]. eapply (login_size _ _ _ _ _ pl _ _ _ n); [intros m; specialize (Hn m); destruct pl; exact Hn|exact Kn|exact N1|exact N2|eapply plugin_short; exact PL|exact C]. }
  apply fine_read_bind. intros r cs SQ. cbn [w_client w_in w_log].
  apply fine_lift_bind; [intros H; apply check_panic in H; destruct r as [[|b r] q]; cbn [fst length] in H; [|lia]; eapply ca_empty; reflexivity|]. intros u _.
  apply fine_lift_bind; [intros H; apply byte_at_panic in H; destruct r as [[|b r] q]; cbn [fst length] in H; [|lia]; eapply ca_empty; reflexivity|]. intros b B.
  destruct (b =? resp_ok); [apply fine_ret|]. destruct (b =? resp_switch) eqn:SW.
  - apply fine_lift_bind; [intros H; now destruct (switch_panic (skipn 1 (fst r)))|]. intros [nm d] E. apply fine_lift_bind; [intros H; now apply next_panic|]. intros q _.
    eapply (switch_fine r); [cbn [w_log]; reflexivity|]. cbn [w_log snd]. intros ->. exists (fst r), (snd r). split; [apply in_or_app; right; left; reflexivity|]. right.
    eapply switch_scramble; [|exact E]. eapply byte_at_starts; [exact B|exact SW].
  - apply fine_lift_bind; [intros H; now apply next_panic|]. intros q _. eapply sha_fine; [cbn [w_log]; reflexivity|]. cbn [w_log]. now do 2 apply scrambled_more.
Qed.
Lemma connect_fine w : fine (connect bl ev st) w.
Proof.
  unfold connect. apply fine_read_bind. intros r cs SQ.
  apply fine_lift_bind; [intros H; apply check_panic in H; destruct r as [[|b r] q]; cbn [fst length] in H; [|lia]; eapply ca_empty; reflexivity|]. intros u _.
  apply fine_lift_bind; [intros H; now destruct (handshake_panic (fst r))|]. intros hs HS. apply fine_lift_bind; [intros H; now destruct (plugin_panic (hs_plugin hs))|]. intros pl PL.
  apply fine_lift_bind; [intros H; now apply next_panic|]. intros s _. apply fine_bind; [eapply authenticate_fine; [cbn [w_log]; reflexivity|exact HS|exact PL]|]. intros a w' _. apply fine_ret.
Qed.

(* ---- set-up ---- *)
Hypothesis HB : s_heartbeat st < 2 ^ 100.
Definition options_fit (o : options) : Prop :=
  N.of_nat (length (utf8_encode (o_file o))) < 16000000 /\
  (o_strategy o = FromGtid -> forall l, o_list o = Some l -> N.of_nat (length (gtid_list_text l)) < 10000000) /\
  (o_strategy o = FromGtid -> forall s, o_set o = Some s -> N.of_nat (length (utf8_encode (o_file o))) < 1000000 /\
    set_ok s /\ set_canonical s /\ (forall d, ~ set_has s d 0) /\ Permutation s (e_order ev s) /\ N.of_nat (length (flat_map entry_bytes s)) < 10000000).
Lemma fine_statement_bind {B} sql m (f : unit -> act B) w : N.of_nat (length (utf8_encode sql)) < 16777215 ->
  (forall w', w_client w' = w_client w -> fine (f tt) w') -> fine (abind (statement sql m) f) w.
Proof.
  intros L H. unfold statement. apply fine_assoc. apply fine_write_bind; [unfold query_command; cbn [length app]; lia|]. apply fine_assoc. apply fine_read_bind. intros r cs _.
  apply fine_lift_bind; [intros E; apply check_panic in E; destruct r as [[|b r] q]; cbn [fst length] in E; [|lia]; eapply ca_empty; reflexivity|]. intros [] _. apply H. reflexivity.
Qed.
Lemma fine_dump id o w : N.of_nat (length (utf8_encode (o_file o))) < 16000000 -> fine (a_write (dump_command id (o_file o) (o_pos o)) 0) w.
Proof. intros L. apply fine_write. unfold dump_command. rewrite !app_length, !le_enc_length. cbn [length]. lia. Qed.
Lemma mysql_fine id w : options_fit (c_opts (w_client w)) -> fine (replicate_mysql bl ev id) w.
Proof.
  intros (F1 & _ & F3). unfold replicate_mysql. apply fine_client_bind. cbv zeta. set (o := c_opts (w_client w)) in *.
  destruct (strategy_eqb (o_strategy o) FromGtid) eqn:S; [|now apply fine_dump]. assert (S' : o_strategy o = FromGtid) by (destruct (o_strategy o); discriminate || reflexivity).
  destruct (o_set o) as [s|] eqn:E; [|apply fine_lift; discriminate]. destruct (F3 S' s eq_refl) as (K0 & K1 & K2 & K3 & K4 & K5).
  assert (LE : forall a b : gtid_set, Permutation a b -> length (flat_map entry_bytes a) = length (flat_map entry_bytes b)).
  { clear. intros a b H. induction H; cbn [flat_map]; rewrite ?app_length; lia. }
  assert (SS : sendable (e_order ev s)) by (pose proof (set_ok_sendable s K1 K2 K3) as SS; unfold sendable in *; now rewrite <- K4).
  assert (ES : dump_sets bl (e_order ev s) = Ok (flat_map entry_bytes (e_order ev s))).
  { apply dump_sets_ok. eapply Forall_impl; [|exact SS]. cbn beta. intros e (_ & _ & K). eapply Forall_impl; [|exact K]. cbn beta. tauto. }
  unfold dump_gtid_command. rewrite ES. cbn [rbind]. apply fine_lift_bind; [discriminate|]. intros x X. apply fine_write.
  assert (X' : x = [n2b cmd_binlog_dump_gtid] ++ le_enc 2 0 ++ le_enc 4 id ++ le_enc 4 (N.of_nat (length (utf8_encode (o_file o)))) ++ utf8_encode (o_file o) ++ le_enc 8 (o_pos o) ++
    le_enc 4 (dump_data_length (e_order ev s)) ++ le_enc 8 (N.of_nat (length (e_order ev s))) ++ flat_map entry_bytes (e_order ev s)) by congruence.
  rewrite X'. rewrite !app_length, !le_enc_length. cbn [length]. specialize (LE _ _ K4). lia.
Qed.
Lemma mariadb_fine id w : options_fit (c_opts (w_client w)) -> fine (replicate_mariadb st id) w.
Proof.
  intros (F1 & F2 & _). unfold replicate_mariadb. apply fine_statement_bind; [reflexivity|]. intros w1 W1. apply fine_client_bind. cbv zeta. rewrite W1. set (o := c_opts (w_client w)) in *.
  destruct (strategy_eqb (o_strategy o) FromGtid) eqn:S; [|apply fine_ret_bind; now apply fine_dump]. assert (S' : o_strategy o = FromGtid) by (destruct (o_strategy o); discriminate || reflexivity).
  destruct (o_list o) as [l|] eqn:E; [|apply fine_lift_bind; discriminate]. unfold register_gtid_slave.
  assert (L : N.of_nat (length (utf8_encode (connect_state_sql l))) < 16777215).
  { unfold connect_state_sql. unfold utf8_encode. rewrite !flat_map_app, !app_length. fold (utf8_encode (gtid_list_text l)). rewrite list_text_length.
    change (length (flat_map utf8_char (tx "SET @slave_connect_state='"))) with 26%nat. change (length (flat_map utf8_char (tx "'"))) with 1%nat. specialize (F2 S' l eq_refl). lia. }
  apply fine_assoc, fine_statement_bind; [exact L|]. intros w2 W2. apply fine_assoc, fine_statement_bind; [reflexivity|]. intros w3 W3. apply fine_assoc, fine_statement_bind; [reflexivity|]. intros w4 W4.
  apply fine_assoc, fine_write_bind; [unfold register_command; rewrite !app_length, !le_enc_length; reflexivity|]. apply fine_assoc, fine_read_bind. intros r cs _.
  apply fine_lift_bind; [intros X; apply check_panic in X; destruct r as [[|b r] q]; cbn [fst length] in X; [|lia]; eapply ca_empty; reflexivity|]. intros [] _. now apply fine_dump.
Qed.
Lemma checksum_fine {B} (f : checksum -> act B) w : (forall ck w', w_client w' = w_client w -> fine (f ck) w') -> fine (abind set_master_binlog_checksum f) w.
Proof.
  intros H. unfold set_master_binlog_checksum. apply fine_assoc, fine_statement_bind; [reflexivity|]. intros w1 W1. apply fine_assoc, fine_write_bind; [reflexivity|]. apply fine_assoc.
  apply fine_result_set. intros rows w2 W2 (cols & e1 & rps & e2 & L & S1 & S2 & F). cbn [w_log w_client] in *. destruct rows as [|[|name more] rows].
  - inversion F; subst. unfold abind, alift. intros _. cbn [snd]. apply (ca_no_row _ _ _ e1 e2); [|exact S1|exact S2].
    exists (w_log w1), (query_command (tx "SELECT @master_binlog_checksum")), cols. split; [rewrite L, <- app_assoc; reflexivity|apply asks_query].
  - exfalso. inversion F as [|p row ps rws [P N] F' Q1 Q2]; subst. destruct (row_inv _ _ P N) as (c & r & n & h & rest & X & _). discriminate X.
  - apply fine_lift_bind; [intros Z; now destruct (checksum_panic name)|]. intros ck _. apply H. congruence.
Qed.

Definition big_seen (l : list io) : Prop := exists p s, In (Received p s) l /\ 16000000 <= N.of_nat (length p).
Lemma fine_grows {A} (m : act A) w : grows m -> big_seen (w_log w) -> fine m w.
Proof. intros G (p & s & I & L) _. destruct (G w) as (l & E). rewrite E. eapply ca_big; [|exact L]. apply in_or_app. left. exact I. Qed.
Lemma adjust_fine {B} (f : unit -> act B) w : options_fit (c_opts (w_client w)) ->
  (forall w', options_fit (c_opts (w_client w')) \/ big_seen (w_log w') -> fine (f tt) w') -> fine (abind adjust_starting_position f) w.
Proof.
  intros F H. unfold adjust_starting_position. apply fine_assoc, fine_client_bind. set (c := w_client w) in *. set (o := c_opts c) in *.
  destruct (strategy_eqb (o_strategy o) FromEnd) eqn:S; cbn [negb]; [|apply fine_ret_bind, H; left; exact F].
  destruct (o_file o) as [|x fl] eqn:FL; [|apply fine_ret_bind, H; left; exact F]. apply fine_assoc, fine_write_bind; [reflexivity|]. apply fine_assoc.
  apply fine_result_set. intros rows w2 W2 (cols & e1 & rps & e2 & L & S1 & S2 & R). cbn [w_log w_client] in *.
  destruct rows as [|row [|row2 rows]]; [apply fine_lift_bind; discriminate| |apply fine_lift_bind; discriminate].
  inversion R as [|p row' ps rws [P N] R' Q1 Q2]; subst. inversion R'; subst. clear R R'.
  destruct (row_inv _ _ P N) as (file & r & n & h & rest & -> & EP & LN & LF & RE). apply fine_assoc, fine_set_bind. destruct r as [|ptext r].
  - intros _. unfold abind, alift. cbn [snd]. cbn [w_log]. apply (ca_one_cell _ _ _ p e2).
    + exists (w_log w), (query_command (tx "show master status")), (cols ++ [e1]). split; [rewrite L, <- !app_assoc; reflexivity|apply asks_query].
    + exists n, h, (utf8_encode file). rewrite (RE eq_refl), app_nil_r in EP. auto.
    + exact S2.
  - apply fine_assoc, fine_lift_bind; [intros Z; pose proof (parse_uint_returns u32max1 ptext) as K; rewrite Z in K; destruct K|]. intros pos _.
    apply fine_set_bind, H. cbn [w_client w_log c_opts].
    destruct (N.lt_ge_cases (N.of_nat (length (fst p))) 16000000) as [BG|BG].
    + left. assert (NS : o_strategy o <> FromGtid) by (destruct (o_strategy o); discriminate). unfold options_fit, with_coords. cbn [o_file o_strategy o_list o_set].
      split; [|split; intros X; now destruct NS]. rewrite EP in BG. rewrite !app_length in BG. lia.
    + right. exists (fst p), (snd p). split; [|exact BG]. rewrite L. apply in_or_app. right. apply in_map_iff. exists p. split; [reflexivity|]. apply in_or_app. right. right. left. reflexivity.
Qed.
Lemma request_fine pr id w : options_fit (c_opts (w_client w)) -> fine (match pr with MariaDB => replicate_mariadb st id | MySQL => replicate_mysql bl ev id end) w.
Proof. intros F. destruct pr; [now apply mariadb_fine|now apply mysql_fine]. Qed.
Lemma set_up_fine pr w : options_fit (c_opts (w_client w)) -> fine (set_up bl ev st pr) w.
Proof.
  intros F. unfold set_up. apply fine_client_bind, fine_set_bind. apply adjust_fine; [exact F|]. intros w1 [F1|B1].
  - unfold set_master_heartbeat. apply fine_statement_bind; [pose proof (heartbeat_sql_length _ HB); lia|]. intros w2 W2. apply checksum_fine. intros ck w3 W3.
    apply fine_bind; [apply request_fine; congruence|]. intros u w4 _. apply fine_ret.
  - apply fine_grows; [apply gr_rest|exact B1].
Qed.
Lemma replicate_fine w : options_fit (c_opts (w_client w)) -> fine (replicate bl ev st) w.
Proof.
  intros F. rewrite replicate_eq. apply fine_bind; [apply connect_fine|]. intros pr w' E. apply set_up_fine. pose proof (connect_keeps bl ev st w) as K. rewrite E in K. cbn [snd] in K. now rewrite K.
Qed.
End Why.
