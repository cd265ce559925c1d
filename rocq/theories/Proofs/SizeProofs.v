(* What is decoded is paid for in bytes read (C79). *)
From Coq Require Import Strings.String.
From Verif Require Import Base.Tac Base.Bytes Base.Text Base.Res Base.Str Base.Parse Base.Loop Model.Codec Model.Values Model.Decimal Model.Cells
  Model.TableMap Model.Rows Model.Gtid Model.GtidMaria Model.Events Spec.SizeSpec Proofs.CodecProofs Proofs.DecimalProofs Proofs.DecodeSafe.
Local Open Scope nat_scope.

(* the position advances by the weight of the result at least *)
Definition pays {A} (w : A -> nat) (p : parser A) : Prop :=
  forall buf pos a pos', p buf pos = Ok (a, pos') -> pos + w a <= pos'.
Lemma pays_bind {A B} (w1 : A -> nat) (w : B -> nat) (p : parser A) (f : A -> parser B) :
  pays w1 p -> (forall a, pays (fun b => w b - w1 a) (f a)) -> pays w (pbind p f).
Proof.
  intros Hp Hf buf pos b pos' H. unfold pbind in H. destruct (p buf pos) as [[a q]|e| |] eqn:E; try discriminate.
  apply Hp in E. apply Hf in H. cbn beta in H. lia.
Qed.
Lemma pays_ret {A} (w : A -> nat) a : w a = 0 -> pays w (ret a).
Proof. intros H buf pos b pos' E. inv E. lia. Qed.
Lemma pays_fail {A} (w : A -> nat) e : pays w (fail e).
Proof. intros buf pos b pos' E. discriminate. Qed.
Lemma pays_panic {A} (w : A -> nat) : pays w (fun _ _ => Panic).
Proof. intros buf pos b pos' E. discriminate. Qed.
Lemma pays_lift {A} (r : res A) : pays (fun _ => 0) (lift r).
Proof. intros buf pos b pos' E. unfold lift in E. destruct r; inv E. lia. Qed.
Lemma pays_weaken {A} (w w' : A -> nat) p : (forall a, w' a <= w a) -> pays w p -> pays w' p.
Proof. intros H Hp buf pos a pos' E. apply Hp in E. specialize (H a). lia. Qed.
Lemma pays_advances {A} k (p : parser A) : advances k p -> pays (fun _ => k) p.
Proof. intros H buf pos a pos' E. now apply H in E. Qed.
Lemma pays_bytes n : pays (fun bs => N.to_nat n) (read_bytes n).
Proof. apply pays_advances, advances_read_bytes. Qed.
Lemma bytes_length n buf pos bs pos' : read_bytes n buf pos = Ok (bs, pos') -> length bs = N.to_nat n.
Proof.
  unfold read_bytes. destruct (alloc n); try discriminate. cbn [rbind]. destruct (N.ltb_spec (N.of_nat (length buf - pos)) n); [discriminate|].
  intros E. assert (bs = firstn (N.to_nat n) (skipn pos buf)) as -> by congruence. rewrite firstn_length, skipn_length. lia.
Qed.
Lemma pays_bytes_length n : pays (@length byte) (read_bytes n).
Proof. intros buf pos bs pos' E. rewrite (bytes_length _ _ _ _ _ E). now apply advances_read_bytes in E. Qed.
Lemma pays_le k : pays (fun _ => k) (read_le k).
Proof. apply pays_advances, advances_read_le. Qed.
Lemma pays_be k : pays (fun _ => k) (read_be k).
Proof.
  unfold read_be. eapply pays_bind; [apply pays_bytes|]. intros a. apply pays_ret. lia.
Qed.
Lemma uint_le_inv n buf pos a pos' : read_uint_le n buf pos = Ok (a, pos') -> (1 <= n <= 8)%N.
Proof. unfold read_uint_le. destruct ((n =? 0)%N || (8 <? n)%N) eqn:E; [discriminate|]. lia. Qed.
Lemma pays_uint_le n : pays (fun _ => 1) (read_uint_le n).
Proof.
  intros buf pos a pos' E. pose proof (uint_le_inv _ _ _ _ _ E) as B. revert E. unfold read_uint_le. destruct (_ || _); [discriminate|].
  unfold pbind. destruct (read_bytes n buf pos) as [[bs q]|e| |] eqn:E; try discriminate. apply pays_bytes in E. unfold ret. intros H. inv H. lia.
Qed.
Lemma pays_uint_be n : pays (fun _ => N.to_nat n) (read_uint_be n).
Proof. unfold read_uint_be. destruct (_ || _); [apply pays_panic|]. eapply pays_bind; [apply pays_bytes|]. intros x. apply pays_ret. lia. Qed.
Lemma utf8_weight bs t : from_utf8 bs = Ok t -> text_weight t = length bs.
Proof. unfold from_utf8. destruct (utf8_decode bs) as [u|] eqn:E; [|discriminate]. intros H. assert (u = t) as -> by congruence. apply utf8_decode_sound in E. unfold text_weight. now rewrite (proj2 E). Qed.
Lemma pays_string n : pays text_weight (read_string n).
Proof.
  unfold read_string. intros buf pos t pos' E. unfold pbind in E. destruct (read_bytes n buf pos) as [[bs q]|e| |] eqn:E1; try discriminate.
  apply pays_bytes_length in E1. unfold lift in E. destruct (from_utf8 bs) as [u|e| |] eqn:E2; inv E. rewrite (utf8_weight _ _ E2). exact E1.
Qed.
Lemma pays_lenenc : pays (fun _ => 1) read_len_enc_num.
Proof.
  unfold read_len_enc_num. apply (pays_bind (fun _ => 1)); [apply pays_le|]. intros b.
  destruct (b <? 251)%N; [now apply pays_ret|]. destruct (b =? 251)%N; [apply pays_fail|].
  destruct (b =? 252)%N; [|destruct (b =? 253)%N; [|destruct (b =? 254)%N; [|apply pays_fail]]];
    (eapply pays_weaken; [|apply pays_le]; intros; cbn; lia).
Qed.
Lemma pays_len_str : pays (fun t => 1 + text_weight t) read_len_enc_str.
Proof.
  unfold read_len_enc_str. eapply pays_bind; [apply pays_lenenc|]. intros n. cbn beta.
  eapply pays_weaken; [|apply pays_string]. intros a. cbn beta. lia.
Qed.
Lemma bits_le_length bs : length (flat_map bits_le bs) = 8 * length bs.
Proof. induction bs as [|b bs IH]; [reflexivity|]. cbn [flat_map]. rewrite app_length, IH. cbn [bits_le map length]. lia. Qed.
Lemma bits_be_length bs : length (flat_map bits_be bs) = 8 * length bs.
Proof. induction bs as [|b bs IH]; [reflexivity|]. cbn [flat_map]. rewrite app_length, IH. cbn [bits_be map length]. lia. Qed.
Lemma pays_bits (f : list byte -> list bool) n : (forall bs, length (f bs) <= N.to_nat n) ->
  pays bits_weight (lift (alloc n) ;;; bs <- read_bytes ((n + 7) / 8) ;; ret (f bs)).
Proof.
  intros H. apply (pays_bind (fun _ => 0)); [apply pays_lift|]. intros _. cbn beta. eapply pays_bind; [apply pays_bytes|]. intros bs. apply pays_ret.
  unfold bits_weight. specialize (H bs). assert ((length (f bs) + 7) / 8 <= (N.to_nat n + 7) / 8) by (apply Nat.div_le_mono; lia).
  assert (N.to_nat ((n + 7) / 8) = (N.to_nat n + 7) / 8) as -> by (rewrite N2Nat.inj_div, N2Nat.inj_add; reflexivity). lia.
Qed.
Lemma pays_bitmap n : pays bits_weight (read_bitmap_le n).
Proof. apply pays_bits. intros bs. rewrite firstn_length. lia. Qed.
Lemma pays_bitmap_be n : pays bits_weight (read_bitmap_be n).
Proof. apply pays_bits. intros bs. rewrite firstn_length. lia. Qed.
Lemma pays_bitmap_reverted n : pays bits_weight (read_bitmap_reverted n).
Proof. apply pays_bits. intros bs. rewrite firstn_length. lia. Qed.
(* a bitmap costs its bits, whatever it holds *)
Lemma pays_bitmap_n n : pays (fun _ => (N.to_nat n + 7) / 8) (read_bitmap_le n).
Proof.
  apply (pays_bind (fun _ => 0)); [apply pays_lift|]. intros _. cbn beta. eapply pays_bind; [apply pays_bytes|]. intros bs. apply pays_ret.
  assert (N.to_nat ((n + 7) / 8) = (N.to_nat n + 7) / 8) as -> by (rewrite N2Nat.inj_div, N2Nat.inj_add; reflexivity). lia.
Qed.
Lemma pays_while {A} (w : A -> nat) (p : parser A) : pays w p -> pays (fun l => list_sum (map w l)) (pwhile p).
Proof.
  intros Hp buf pos l pos'. unfold pwhile. generalize (S (length buf)) as fuel. intros fuel. revert pos l pos'.
  induction fuel as [|f IH]; intros pos l pos'; cbn [pwhile_aux]; destruct (pos <? length buf).
  - discriminate.
  - intros H. inv H. cbn. lia.
  - unfold pbind. destruct (p buf pos) as [[x p1]|e| |] eqn:E1; try discriminate.
    destruct (pwhile_aux f p buf p1) as [[xs p2]|e| |] eqn:E2; try discriminate. intros H. inv H.
    apply Hp in E1. apply IH in E2. cbn [map list_sum fold_right] in *. unfold list_sum in *. lia.
  - intros H. inv H. cbn. lia.
Qed.
Lemma pays_loop {A} (w : A -> nat) n (p : parser A) : pays w p -> pays (fun l => list_sum (map w l)) (ploop n p).
Proof.
  intros Hp buf pos l pos'. unfold ploop. generalize (S (length buf)) as fuel. intros fuel. revert n pos l pos'.
  induction fuel as [|f IH]; intros n pos l pos'; cbn [ploop_aux]; destruct (n =? 0)%N.
  - intros H. inv H. cbn. lia.
  - discriminate.
  - intros H. inv H. cbn. lia.
  - unfold pbind. destruct (p buf pos) as [[x p1]|e| |] eqn:E1; try discriminate.
    destruct (ploop_aux f (n - 1) p buf p1) as [[xs p2]|e| |] eqn:E2; try discriminate. intros H. inv H.
    apply Hp in E1. apply IH in E2. cbn [map list_sum fold_right] in *. unfold list_sum in *. lia.
Qed.
Lemma keeps_while {A} (p : parser A) : keeps p -> keeps (pwhile p).
Proof.
  intros Hp buf pos l pos' L. unfold pwhile. generalize (S (length buf)) as fuel. intros fuel. revert pos l pos' L.
  induction fuel as [|f IH]; intros pos l pos' L; cbn [pwhile_aux]; destruct (pos <? length buf).
  - discriminate.
  - intros H. inv H. exact L.
  - unfold pbind. destruct (p buf pos) as [[x p1]|e| |] eqn:E1; try discriminate.
    destruct (pwhile_aux f p buf p1) as [[xs p2]|e| |] eqn:E2; try discriminate. intros H. inv H.
    apply Hp in E1; [|exact L]. now apply IH in E2.
  - intros H. inv H. exact L.
Qed.

(* ---- decimal numbers: at most three characters per byte, and three more ---- *)
Lemma uint_be_lt n buf pos a pos' : read_uint_be n buf pos = Ok (a, pos') -> (1 <= n <= 8 /\ a < 256 ^ n)%N.
Proof.
  unfold read_uint_be. destruct ((n =? 0)%N || (8 <? n)%N) eqn:E; [discriminate|]. unfold pbind. destruct (read_bytes n buf pos) as [[bs q]|e| |] eqn:E1; try discriminate.
  intros H. assert (a = be_dec bs) as -> by (unfold ret in H; congruence). split; [lia|]. pose proof (be_dec_lt bs) as B. rewrite (bytes_length _ _ _ _ _ E1), N2Nat.id in B. exact B.
Qed.
Lemma be4_lt buf pos a pos' : read_be 4 buf pos = Ok (a, pos') -> (a < 4294967296)%N.
Proof.
  unfold read_be, pbind. destruct (read_bytes (N.of_nat 4) buf pos) as [[bs q]|e| |] eqn:E1; try discriminate.
  intros H. assert (a = be_dec bs) as -> by (unfold ret in H; congruence). pose proof (be_dec_lt bs) as B. rewrite (bytes_length _ _ _ _ _ E1) in B. exact B.
Qed.
Lemma dec10 n : (n < 4294967296)%N -> length (dec_text n) <= 10.
Proof. intros H. apply dec_text_length; [lia|]. change (10 ^ N.of_nat 10)%N with 10000000000%N. lia. Qed.
Lemma pad_text_length k n j : length (dec_text n) <= j -> k <= j -> length (pad_text k n) <= j.
Proof. intros H1 H2. unfold pad_text. rewrite app_length, repeat_length. lia. Qed.
Lemma int_groups_length k : forall st acc buf pos r pos', dec_int_groups k st acc buf pos = Ok (r, pos') -> length (snd r) <= length acc + 12 * k.
Proof.
  induction k as [|k IH]; intros st acc buf pos r pos' H; cbn [dec_int_groups] in H; [unfold ret in H; assert (r = (st, acc)) as -> by congruence; cbn; lia|].
  unfold pbind in H. destruct (read_be 4 buf pos) as [[n q]|e| |] eqn:E; try discriminate. apply be4_lt in E. pose proof (dec10 n E) as D.
  destruct st; [|destruct (0 <? n)%N]; apply IH in H; rewrite ?app_length in H; [pose proof (pad_text_length 9 n 10 D); lia|lia|lia].
Qed.
Lemma frac_groups_length k : forall acc buf pos r pos', dec_frac_groups k acc buf pos = Ok (r, pos') -> length r <= length acc + 12 * k.
Proof.
  induction k as [|k IH]; intros acc buf pos r pos' H; cbn [dec_frac_groups] in H; [unfold ret in H; assert (r = acc) as -> by congruence; cbn; lia|].
  unfold pbind in H. destruct (read_be 4 buf pos) as [[n q]|e| |] eqn:E; try discriminate. apply be4_lt in E. pose proof (dec10 n E) as D.
  apply IH in H. rewrite ?app_length in H. pose proof (pad_text_length 9 n 10 D). lia.
Qed.
Lemma short_group c n : (c < 9)%N -> (0 < compressed_bytes c)%N -> (n < 256 ^ compressed_bytes c)%N ->
  length (dec_text (n mod u32max1)) <= 3 * N.to_nat (compressed_bytes c) /\ N.to_nat c <= 3 * N.to_nat (compressed_bytes c).
Proof.
  intros Hc Hp Hn. assert (L : (n mod u32max1 <= n)%N) by (apply N.mod_le; discriminate).
  assert (C : In c [0; 1; 2; 3; 4; 5; 6; 7; 8]%N) by (cbn; lia).
  revert Hp Hn. repeat (destruct C as [<-|C]; [
    match goal with |- context [compressed_bytes ?x] => let v := eval vm_compute in (compressed_bytes x) in change (compressed_bytes x) with v end;
    intros Hp Hn; first [exfalso; lia | split; [apply dec_text_length; [lia|]|lia];
    match type of Hn with (n < ?a)%N => let x := eval vm_compute in a in change a with x in Hn end;
    match goal with |- (_ < ?b)%N => let y := eval vm_compute in b in change b with y; lia end]|]).
  contradiction.
Qed.
Lemma digits_length ui ci uf cf sc sg buf pos r pos' : (ci < 9)%N -> (cf < 9)%N -> decimal_digits ui ci uf cf sc sg buf pos = Ok (r, pos') ->
  length r <= length sg + 2 + 3 * N.to_nat (ui * 4 + compressed_bytes ci + uf * 4 + compressed_bytes cf).
Proof.
  intros Hi Hf H. unfold decimal_digits in H. unfold pbind at 1 in H.
  match type of H with match ?x with _ => _ end = _ => destruct x as [[[st acc] q]|e| |] eqn:E1; try discriminate end.
  assert (L1 : length acc <= length sg + 3 * N.to_nat (compressed_bytes ci)).
  { cbv zeta in E1. destruct (N.ltb_spec 0 (compressed_bytes ci)) as [P|P]; [|unfold ret in E1; inv E1; lia].
    unfold pbind in E1. destruct (read_uint_be (compressed_bytes ci) buf pos) as [[n q1]|e| |] eqn:E2; try discriminate. apply uint_be_lt in E2.
    pose proof (short_group ci n Hi P (proj2 E2)) as [S _].
    destruct (0 <? n mod u32max1)%N; unfold ret in E1; inv E1; rewrite ?app_length; lia. }
  unfold pbind at 1 in H. destruct (dec_int_groups (N.to_nat ui) st acc buf q) as [[[st2 acc2] q2]|e| |] eqn:E2; try discriminate.
  apply int_groups_length in E2. cbn [snd] in E2. cbv zeta in H. unfold pbind at 1 in H.
  match type of H with match ?x with _ => _ end = _ => destruct x as [[acc3 q3]|e| |] eqn:E3; try discriminate end.
  apply frac_groups_length in E3.
  assert (L3 : length acc3 <= length acc2 + 2 + 12 * N.to_nat uf).
  { revert E3. destruct st2, (0 <? sc)%N; rewrite ?app_length; cbn [length]; lia. }
  destruct (N.ltb_spec 0 (compressed_bytes cf)) as [P|P]; [|unfold ret in H; inv H; lia].
  unfold pbind in H. destruct (read_uint_be (compressed_bytes cf) buf q3) as [[n q4]|e| |] eqn:E4; try discriminate. apply uint_be_lt in E4.
  pose proof (short_group cf n Hf P (proj2 E4)) as [S1 S2]. unfold ret in H. inv H. rewrite app_length.
  pose proof (pad_text_length (N.to_nat cf) (n mod u32max1) _ S1 S2). lia.
Qed.
Lemma digits_left x : (x - x / 9 * 9 < 9)%N.
Proof. rewrite N.mul_comm, <- N.mod_eq by discriminate. now apply N.mod_lt. Qed.
Lemma pays_decimal bl m : pays (fun t => (length t + 5) / 6) (parse_decimal bl m).
Proof.
  unfold parse_decimal. cbv zeta. apply (pays_bind (fun _ => 0)); [apply pays_lift|]. intros i16. cbn beta.
  set (ui := (i16 mod 256 / 9)%N). set (uf := (m / 256 mod 256 / 9)%N).
  set (ci := (i16 mod 256 - ui * 9)%N). set (cf := (m / 256 mod 256 - uf * 9)%N).
  assert (Hi : (ci < 9)%N) by apply digits_left. assert (Hf : (cf < 9)%N) by apply digits_left.
  intros buf pos t pos' E. unfold pbind in E.
  destruct (read_bytes (ui * 4 + compressed_bytes ci + uf * 4 + compressed_bytes cf) buf pos) as [[bs q]|e| |] eqn:E1; try discriminate.
  pose proof (bytes_length _ _ _ _ _ E1) as L. apply pays_bytes in E1. destruct bs as [|b0 bs]; [discriminate|]. cbn [length] in L.
  unfold lift in E. match type of E with match match ?x with _ => _ end with _ => _ end = _ => destruct x as [[t' q']|e| |] eqn:E2; try discriminate end.
  assert (t' = t /\ pos' = q) as [-> ->] by (split; congruence). apply digits_length in E2; [|exact Hi|exact Hf].
  assert (length (if (N.land (b2n b0) 128 =? 0)%N then [45%N] else []) <= 1) by (destruct (_ =? _)%N; cbn; lia).
  assert ((length t + 5) / 6 <= S (length bs)); [|lia]. apply Nat.lt_succ_r, Nat.div_lt_upper_bound; lia.
Qed.

(* ---- cells and rows ---- *)
Lemma pays_map {A B} (w : B -> nat) (p : parser A) (f : A -> B) : pays (fun a => w (f a)) p -> pays w (x <- p ;; ret (f x)).
Proof. intros H. eapply pays_bind; [exact H|]. intros a. apply pays_ret. lia. Qed.
Lemma pays_const {A B} (w : B -> nat) k (p : parser A) (f : A -> B) : (forall a, w (f a) <= k) -> advances k p -> pays w (x <- p ;; ret (f x)).
Proof. intros H P. apply pays_map. eapply pays_weaken; [|apply pays_advances; exact P]. exact H. Qed.
Lemma adv_read_le k : advances k (read_le k). Proof. apply advances_read_le. Qed.
Lemma adv_read_be k : advances k (read_be k).
Proof. intros buf pos a pos' E. now apply pays_be in E. Qed.
Lemma adv_uint_le n : advances 1 (read_uint_le n).
Proof. intros buf pos a pos' E. now apply pays_uint_le in E. Qed.
Lemma adv_then {A B} k (p : parser A) (f : A -> parser B) : advances k p -> (forall a, advances 0 (f a)) -> advances k (pbind p f).
Proof. intros H1 H2. eapply advances_weaken; [|eapply advances_bind; eauto]. lia. Qed.
Lemma pays_cell bl ty m : pays value_weight (parse_cell bl ty m).
Proof.
  unfold parse_cell. apply (pays_bind (fun _ => 0)); [apply pays_lift|]. intros ct. cbn beta.
  apply (pays_weaken value_weight); [intros; lia|].
  destruct ct; try apply pays_fail.
  all: try (eapply pays_const; [intros a; cbn [value_weight]; apply Nat.le_refl|apply adv_read_le]).
  all: try (eapply pays_const; [intros a; cbn [value_weight]; apply Nat.le_refl|apply adv_uint_le]).
  all: try (apply pays_map; cbn [value_weight]; unfold parse_string; apply (pays_bind (fun _ => 1)); [destruct (m <? 256)%N; eapply pays_weaken; try apply pays_le; intros; cbn; lia|];
    intros n; cbn beta; eapply pays_weaken; [|apply pays_string]; intros; cbn beta; lia).
  all: try (apply pays_map; cbn [value_weight]; unfold parse_blob; apply (pays_bind (fun _ => 1)); [apply pays_uint_le|];
    intros n; cbn beta; eapply pays_weaken; [|apply pays_bytes_length]; intros; cbn beta; lia).
  - (* timestamp *) eapply (pays_const _ 4); [intros a; cbn; lia|]. apply adv_then; [apply adv_read_le|intros; apply advances_ret].
  - (* date *) eapply (pays_const _ 3); [intros a; cbn; lia|]. apply adv_then; [apply adv_read_le|intros; apply advances_ret].
  - (* time *) eapply (pays_const _ 3); [intros a; cbn; lia|]. apply adv_then; [apply adv_read_le|intros]. destruct (_ <? _)%Z; [apply advances_fail|apply advances_ret].
  - (* datetime *) eapply (pays_const _ 8); [intros a; cbn; lia|]. apply adv_then; [apply adv_read_le|intros; apply advances_ret].
  - (* year *) eapply (pays_const _ 1); [intros a; cbn; lia|]. apply adv_then; [apply adv_read_le|intros; apply advances_ret].
  - (* bit *) apply pays_map. unfold parse_bit. cbv zeta. apply (pays_map _ _ (fun bm => rev bm)). eapply pays_weaken; [|apply pays_bitmap_be].
    intros a. cbn [value_weight]. unfold bits_weight. now rewrite rev_length.
  - (* timestamp2 *) eapply (pays_const _ 4); [intros a; cbn; lia|]. apply adv_then; [apply adv_read_be|intros]. apply adv0_bind; [apply adv0_fractional|intros; apply advances_lift].
  - (* datetime2 *) eapply (pays_const _ 5); [intros a; cbn; lia|]. apply adv_then; [|intros; apply adv0_bind; [apply adv0_fractional|intros; apply advances_ret]].
    intros buf pos a pos' E. now apply pays_uint_be in E.
  - (* time2 *) eapply (pays_const _ 3); [intros a; cbn; lia|]. apply adv_then; [apply adv_read_be|intros]. apply adv0_bind; [apply adv0_fractional|intros; cbv zeta].
    destruct (_ =? _)%N; [apply advances_fail|apply advances_ret].
  - (* decimal *) apply pays_map. cbn [value_weight]. apply pays_decimal.
Qed.
Lemma pays_columns bl types : forall metas ps nulls, pays (fun r => list_sum (map cell_weight r)) (parse_columns bl types metas ps nulls).
Proof.
  induction types as [|ty types IH]; intros metas ps nulls; cbn [parse_columns]; [now apply pays_ret|].
  assert (N : forall metas ps nulls, pays (fun r => list_sum (map cell_weight r)) (cells <- parse_columns bl types metas ps nulls ;; ret (None :: cells))).
  { intros m' p' n'. apply pays_map. cbn. apply IH. }
  destruct ps as [|[|] ps]; [apply pays_panic| |apply N].
  destruct nulls as [|[|] nulls]; [apply pays_panic|apply N|].
  destruct metas as [|m metas]; [apply pays_panic|]. apply (pays_bind (fun _ => 0)); [apply pays_lift|]. intros ct. cbn beta.
  destruct (match ct with CtString => actual_string_type ty m | _ => (ty, m) end) as [ty2 m2].
  eapply pays_bind; [apply pays_cell|]. intros v. cbn beta. eapply pays_bind; [apply IH|]. intros r. cbn beta. apply pays_ret. cbn. unfold list_sum. lia.
Qed.
Lemma pays_row bl t ps : pays (row_weight ps) (parse_row bl t ps (bits_number ps)).
Proof.
  unfold parse_row, row_weight. eapply pays_bind; [apply pays_bitmap_n|]. intros nulls. cbn beta. eapply pays_weaken; [|apply pays_columns]. intros r. cbn beta.
  unfold bits_weight, bits_number. rewrite Nat2N.id. lia.
Qed.
(* ---- nothing is read beyond the end ---- *)
Lemma keeps_panic {A} : keeps (fun _ _ => @Panic (A * nat)). Proof. intros buf pos a pos' _ H. discriminate. Qed.
Lemma keeps_uint_le n : keeps (read_uint_le n).
Proof. unfold read_uint_le. destruct (_ || _); [apply keeps_panic|]. apply keeps_bind; [apply keeps_read_bytes|intros; apply keeps_ret]. Qed.
Lemma keeps_uint_be n : keeps (read_uint_be n).
Proof. unfold read_uint_be. destruct (_ || _); [apply keeps_panic|]. apply keeps_bind; [apply keeps_read_bytes|intros; apply keeps_ret]. Qed.
Lemma keeps_string n : keeps (read_string n).
Proof. apply keeps_bind; [apply keeps_read_bytes|intros; apply keeps_lift]. Qed.
Lemma keeps_bitmap n : keeps (read_bitmap_le n).
Proof. apply keeps_bind; [apply keeps_lift|intros]. apply keeps_bind; [apply keeps_read_bytes|intros; apply keeps_ret]. Qed.
Lemma keeps_bitmap_be n : keeps (read_bitmap_be n).
Proof. apply keeps_bind; [apply keeps_lift|intros]. apply keeps_bind; [apply keeps_read_bytes|intros; apply keeps_ret]. Qed.
Lemma keeps_bitmap_reverted n : keeps (read_bitmap_reverted n).
Proof. apply keeps_bind; [apply keeps_lift|intros]. apply keeps_bind; [apply keeps_read_bytes|intros; apply keeps_ret]. Qed.
Lemma keeps_lenenc : keeps read_len_enc_num. Proof. apply bounded_keeps, bounded_lenenc. Qed.
Lemma keeps_len_str : keeps read_len_enc_str. Proof. apply bounded_keeps, bounded_len_str. Qed.
Lemma keeps_fractional bl m : keeps (parse_fractional bl m).
Proof.
  unfold parse_fractional. apply keeps_bind; [apply keeps_lift|intros a]. cbv zeta. destruct (_ =? _)%N; [apply keeps_ret|].
  apply keeps_bind; [apply keeps_uint_be|intros]. destruct (_ <=? _)%N; [apply keeps_lift|]. destruct bl; [apply keeps_panic|apply keeps_ret].
Qed.
Lemma keeps_decimal bl m : keeps (parse_decimal bl m).
Proof.
  unfold parse_decimal. apply keeps_bind; [apply keeps_lift|intros a]. cbv zeta. apply keeps_bind; [apply keeps_read_bytes|intros [|b r]; [apply keeps_panic|]].
  apply keeps_lift.
Qed.
Ltac ke := first [apply keeps_ret | apply keeps_fail | apply keeps_panic | apply keeps_read_le | apply keeps_read_be | apply keeps_uint_le | apply keeps_uint_be | apply keeps_read_bytes
  | apply keeps_string | apply keeps_bitmap | apply keeps_bitmap_be | apply keeps_bitmap_reverted | apply keeps_fractional | apply keeps_decimal | apply keeps_lift | apply keeps_lenenc | apply keeps_len_str].
Lemma keeps_cell bl ty m : keeps (parse_cell bl ty m).
Proof.
  unfold parse_cell. apply keeps_bind; [ke|]. intros ct.
  destruct ct; try ke; (apply keeps_bind; [|intros; apply keeps_ret]); try ke.
  all: unfold parse_timestamp, parse_date, parse_time, parse_date_time, parse_year, parse_string, parse_bit, parse_timestamp2, parse_date_time2, parse_time2, parse_blob.
  all: try (apply keeps_bind; [first [ke | destruct (m <? 256)%N; ke]|intros; cbv zeta; try ke]).
  - destruct (_ <? _)%Z; ke.
  - apply keeps_bind; [ke|intros; ke].
  - apply keeps_bind; [ke|intros; cbv zeta; ke].
  - apply keeps_bind; [ke|intros; cbv zeta]. destruct (_ =? _)%N; ke.
Qed.
Lemma keeps_columns bl types : forall metas ps nulls, keeps (parse_columns bl types metas ps nulls).
Proof.
  induction types as [|ty types IH]; intros metas ps nulls; cbn [parse_columns]; [ke|].
  destruct ps as [|[|] ps]; [ke| |apply keeps_bind; [apply IH|intros; ke]].
  destruct nulls as [|[|] nulls]; [ke|apply keeps_bind; [apply IH|intros; ke]|].
  destruct metas as [|m metas]; [ke|]. apply keeps_bind; [ke|intros ct].
  destruct (match ct with CtString => actual_string_type ty m | _ => (ty, m) end) as [ty2 m2].
  apply keeps_bind; [apply keeps_cell|intros]. apply keeps_bind; [apply IH|intros; ke].
Qed.
Lemma keeps_row bl t ps n : keeps (parse_row bl t ps n).
Proof. apply keeps_bind; [ke|intros; apply keeps_columns]. Qed.
Lemma bounded_seek {A} d (p : parser A) : bounded p -> bounded (seek_cur d ;;; p).
Proof. intros H buf pos a pos' E. unfold pbind, seek_cur in E. destruct (_ <? _)%Z; [discriminate|]. now apply H in E. Qed.
Lemma bounded_head v : bounded (parse_head v).
Proof.
  intros buf pos a pos' E. unfold parse_head, pbind at 1 in E. destruct (read_u48 buf pos) as [[id q1]|e| |]; try discriminate.
  unfold pbind at 1 in E. destruct (read_u16 buf q1) as [[fl q2]|e| |]; try discriminate. unfold pbind at 1 in E.
  match type of E with match ?x with _ => _ end = _ => destruct x as [[u q3]|e| |]; try discriminate end.
  unfold pbind in E. destruct (read_len_enc_num buf q3) as [[n q4]|e| |] eqn:E1; try discriminate. unfold ret in E. inv E. now apply bounded_lenenc in E1.
Qed.

(* ---- metadata of a table map ---- *)
Lemma pays_on_buffer {A} (w : A -> nat) bs (p : parser A) buf pos a pos' : pays w p -> keeps p -> on_buffer bs p buf pos = Ok (a, pos') -> w a <= length bs /\ pos' = pos.
Proof.
  intros P K E. unfold on_buffer, lift in E. destruct (p bs 0) as [[x q]|e| |] eqn:E1; try discriminate.
  assert (x = a /\ pos' = pos) as [-> ->] by (split; congruence). pose proof (P _ _ _ _ E1). apply K in E1; [|lia]. lia.
Qed.
Lemma list_sum_const {A} k (l : list A) : list_sum (map (fun _ => k) l) = k * length l.
Proof. induction l as [|x l IH]; [cbn; lia|]. cbn [map list_sum fold_right length] in *. unfold list_sum in *. rewrite IH. lia. Qed.
Lemma pays_int_array : pays (@length N) parse_int_array.
Proof.
  eapply pays_weaken; [|apply (pays_while (fun _ => 1))].
  - intros l. cbn beta. rewrite list_sum_const. lia.
  - eapply pays_bind; [apply pays_lenenc|]. intros a. now apply pays_ret.
Qed.
Lemma pays_int_map : pays (fun l => 2 * length l) parse_int_map.
Proof.
  eapply pays_weaken; [|apply (pays_while (fun _ => 2))].
  - intros l. cbn beta. rewrite list_sum_const. lia.
  - eapply pays_bind; [apply pays_lenenc|]. intros a. eapply pays_bind; [apply pays_lenenc|]. intros b. now apply pays_ret.
Qed.
Lemma pays_string_array : pays strings_weight parse_string_array.
Proof. apply pays_while, pays_len_str. Qed.
Lemma pays_type_values : pays (fun l => list_sum (map (fun s => 1 + strings_weight s) l)) parse_type_values.
Proof.
  apply (pays_while (fun s => 1 + strings_weight s)). eapply pays_bind; [apply pays_lenenc|]. intros n. cbn beta.
  eapply pays_weaken; [|apply pays_loop, pays_len_str]. intros l. cbn beta. unfold strings_weight. lia.
Qed.
Lemma pays_charset : pays charset_weight parse_default_charset.
Proof.
  unfold parse_default_charset. eapply pays_bind; [apply pays_lenenc|]. intros d. cbn beta. eapply pays_bind; [apply pays_int_map|]. intros m. cbn beta. apply pays_ret. unfold charset_weight. cbn [dc_map]. lia.
Qed.
Lemma keeps_int_array : keeps parse_int_array. Proof. apply keeps_while, keeps_bind; [ke|intros; ke]. Qed.
Lemma keeps_int_map : keeps parse_int_map. Proof. apply keeps_while, keeps_bind; [ke|intros]. apply keeps_bind; [ke|intros; ke]. Qed.
Lemma keeps_string_array : keeps parse_string_array. Proof. apply keeps_while; ke. Qed.
Lemma keeps_type_values : keeps parse_type_values. Proof. apply keeps_while, keeps_bind; [ke|intros]. apply keeps_ploop; ke. Qed.
Lemma keeps_charset : keeps parse_default_charset. Proof. apply keeps_bind; [ke|intros]. apply keeps_bind; [apply keeps_int_map|intros; ke]. Qed.
Lemma keeps_on_buffer {A} bs (p : parser A) : keeps (on_buffer bs p). Proof. apply keeps_lift. Qed.
Lemma field_spec types m buf pos m' pos' : metadata_field types m buf pos = Ok (m', pos') ->
  pos + (metadata_weight m' - metadata_weight m) <= pos' /\ (pos <= length buf -> pos' <= length buf).
Proof.
  intros E. unfold metadata_field, pbind at 1 in E. destruct (read_u8 buf pos) as [[code q1]|e| |] eqn:E1; try discriminate.
  pose proof (pays_le _ _ _ _ _ E1) as P1. assert (K1 : q1 <= length buf) by (apply (bounded_read_le 1) in E1; [exact E1|lia]). clear E1.
  unfold pbind at 1 in E. destruct ((1 <=? code)%N && (code <=? 12)%N); [|discriminate]. unfold ret at 1 in E.
  unfold pbind at 1 in E. destruct (read_len_enc_num buf q1) as [[len q2]|e| |] eqn:E2; try discriminate.
  pose proof (pays_lenenc _ _ _ _ E2) as P2. pose proof (keeps_lenenc _ _ _ _ K1 E2) as K2. clear E2.
  unfold pbind at 1 in E. destruct (read_bytes len buf q2) as [[bs q3]|e| |] eqn:E3; try discriminate.
  pose proof (pays_bytes_length _ _ _ _ _ E3) as P3. pose proof (keeps_read_bytes _ _ _ _ _ K2 E3) as K3. clear E3.
  cbn beta in *. destruct m as [f1 f2 f3 f4 f5 f6 f7 f8 f9 f10 f11 f12].
  assert (F : forall A (w : A -> nat) (p : parser A) (f : A -> table_metadata), pays w p -> keeps p -> (x <- on_buffer bs p ;; ret (f x)) buf q3 = Ok (m', pos') ->
    exists x, m' = f x /\ pos' = q3 /\ w x <= length bs).
  { intros A w p f Pw Kp X. unfold pbind in X. destruct (on_buffer bs p buf q3) as [[x q4]|e| |] eqn:X1; try discriminate.
    apply (pays_on_buffer w) in X1; [|exact Pw|exact Kp]. unfold ret in X. inv X. exists x. split; [reflexivity|]. split; [apply X1|apply X1]. }
  destruct (code =? 1)%N.
  { unfold pbind at 1 in E. unfold lift in E. destruct (numeric_count types) as [n|e| |]; try discriminate.
    apply (F _ bits_weight _ _ (pays_bitmap_reverted n) (keeps_bitmap_reverted n)) in E. destruct E as (x & -> & -> & W). unfold metadata_weight;
    cbn [tm_signedness tm_default_charset tm_column_charsets tm_column_names tm_set_values tm_enum_values tm_geometry_types tm_simple_keys tm_prefix_keys tm_enum_set_default_charset tm_enum_set_charsets tm_visibility opt_weight].
    split; [lia|auto]. }
  destruct (code =? 2)%N; [apply (F _ charset_weight _ _ pays_charset keeps_charset) in E|
  destruct (code =? 3)%N; [apply (F _ (@length N) _ _ pays_int_array keeps_int_array) in E|
  destruct (code =? 4)%N; [apply (F _ strings_weight _ _ pays_string_array keeps_string_array) in E|
  destruct (code =? 5)%N; [apply (F _ _ _ _ pays_type_values keeps_type_values) in E|
  destruct (code =? 6)%N; [apply (F _ _ _ _ pays_type_values keeps_type_values) in E|
  destruct (code =? 7)%N; [apply (F _ (@length N) _ _ pays_int_array keeps_int_array) in E|
  destruct (code =? 8)%N; [apply (F _ (@length N) _ _ pays_int_array keeps_int_array) in E|
  destruct (code =? 9)%N; [apply (F _ _ _ _ pays_int_map keeps_int_map) in E|
  destruct (code =? 10)%N; [apply (F _ charset_weight _ _ pays_charset keeps_charset) in E|
  destruct (code =? 11)%N; [apply (F _ (@length N) _ _ pays_int_array keeps_int_array) in E|
  apply (F _ bits_weight _ _ (pays_bitmap_reverted _) (keeps_bitmap_reverted _)) in E]]]]]]]]]].
  all: destruct E as (x & -> & -> & W); cbn beta in W; unfold metadata_weight;
    cbn [tm_signedness tm_default_charset tm_column_charsets tm_column_names tm_set_values tm_enum_values tm_geometry_types tm_simple_keys tm_prefix_keys tm_enum_set_default_charset tm_enum_set_charsets tm_visibility opt_weight];
    (split; [lia|auto]).
Qed.
Lemma loop_spec types fuel : forall m buf pos m' pos', metadata_loop fuel types m buf pos = Ok (m', pos') ->
  pos + (metadata_weight m' - metadata_weight m) <= pos' /\ (pos <= length buf -> pos' <= length buf).
Proof.
  induction fuel as [|f IH]; intros m buf pos m' pos'; cbn [metadata_loop]; destruct (pos <? length buf).
  - discriminate.
  - intros E. inv E. split; [lia|auto].
  - unfold pbind. destruct (metadata_field types m buf pos) as [[m1 q]|e| |] eqn:E1; try discriminate. intros E. apply field_spec in E1. apply IH in E. split; [lia|]. tauto.
  - intros E. inv E. split; [lia|auto].
Qed.
Lemma pays_table_metadata types : pays metadata_weight (parse_table_metadata types).
Proof. intros buf pos m pos' E. apply loop_spec in E. destruct E as [E _]. change (metadata_weight empty_metadata) with 0 in E. lia. Qed.
Lemma keeps_table_metadata types : keeps (parse_table_metadata types).
Proof. intros buf pos m pos' L E. apply loop_spec in E. tauto. Qed.
Lemma adv0_columns_meta types : advances 0 (columns_meta types).
Proof.
  induction types as [|c r IH]; cbn [columns_meta]; [apply advances_ret|]. apply adv0_bind; [|intros; apply adv0_bind; [exact IH|intros; apply advances_ret]].
  unfold column_meta. apply adv0_bind; [apply advances_lift|]. intros t. destruct t; first [apply adv_le; lia | apply adv0_be | apply advances_ret].
Qed.
Lemma keeps_columns_meta types : keeps (columns_meta types).
Proof.
  induction types as [|c r IH]; cbn [columns_meta]; [ke|]. apply keeps_bind; [|intros; apply keeps_bind; [exact IH|intros; ke]].
  unfold column_meta. apply keeps_bind; [ke|]. intros t. destruct t; ke.
Qed.
Lemma seek_fwd d buf pos u pos' : (0 <= d)%Z -> seek_cur d buf pos = Ok (u, pos') -> pos' = pos + Z.to_nat d.
Proof. intros D E. unfold seek_cur in E. destruct (_ <? _)%Z; [discriminate|]. inv E. lia. Qed.
Lemma table_map_spec buf t pos' : parse_table_map buf 0 = Ok (t, pos') -> 8 + table_weight t <= pos' /\ pos' <= length buf.
Proof.
  intros E. unfold parse_table_map in E.
  unfold pbind at 1 in E. destruct (read_u48 buf 0) as [[id q1]|e| |] eqn:E1; try discriminate. apply pays_le in E1.
  unfold pbind at 1 in E. destruct (seek_cur 2 buf q1) as [[u2 q2]|e| |] eqn:E2; try discriminate. apply seek_fwd in E2; [|lia].
  unfold pbind at 1 in E. destruct (read_u8 buf q2) as [[dl q3]|e| |] eqn:E3; try discriminate. apply pays_le in E3.
  unfold pbind at 1 in E. destruct (read_string dl buf q3) as [[db q4]|e| |] eqn:E4; try discriminate. apply pays_string in E4.
  unfold pbind at 1 in E. destruct (seek_cur 1 buf q4) as [[u5 q5]|e| |] eqn:E5; try discriminate. apply seek_fwd in E5; [|lia].
  unfold pbind at 1 in E. destruct (read_u8 buf q5) as [[tl q6]|e| |] eqn:E6; try discriminate. apply pays_le in E6.
  unfold pbind at 1 in E. destruct (read_string tl buf q6) as [[tn q7]|e| |] eqn:E7; try discriminate. apply pays_string in E7.
  unfold pbind at 1 in E. destruct (seek_cur 1 buf q7) as [[u8 q8]|e| |] eqn:E8; try discriminate. apply seek_fwd in E8; [|lia].
  unfold pbind at 1 in E. destruct (read_len_enc_num buf q8) as [[cn q9]|e| |] eqn:E9; try discriminate. pose proof (bounded_lenenc _ _ _ _ E9) as K9. apply pays_lenenc in E9.
  unfold pbind at 1 in E. destruct (read_bytes cn buf q9) as [[cts q10]|e| |] eqn:E10; try discriminate. pose proof (keeps_read_bytes _ _ _ _ _ K9 E10) as K10. apply pays_bytes_length in E10.
  unfold pbind at 1 in E. destruct (read_len_enc_num buf q10) as [[ml q11]|e| |] eqn:E11; try discriminate. pose proof (keeps_lenenc _ _ _ _ K10 E11) as K11. apply pays_lenenc in E11.
  unfold pbind at 1 in E. destruct (columns_meta (map b2n cts) buf q11) as [[me q12]|e| |] eqn:E12; try discriminate. pose proof (keeps_columns_meta _ _ _ _ _ K11 E12) as K12. apply adv0_columns_meta in E12.
  unfold pbind at 1 in E. destruct (read_bitmap_le cn buf q12) as [[nb q13]|e| |] eqn:E13; try discriminate. pose proof (keeps_bitmap _ _ _ _ _ K12 E13) as K13. apply pays_bitmap in E13.
  unfold pbind at 1, get_pos in E. unfold pbind at 1, get_len in E. unfold pbind at 1 in E.
  match type of E with match ?x with _ => _ end = _ => destruct x as [[md q14]|e| |] eqn:E14; try discriminate end.
  assert (K14 : q14 <= length buf /\ q13 + opt_weight metadata_weight md <= q14).
  { destruct (q13 <? length buf).
    - unfold pbind in E14. destruct (parse_table_metadata (map b2n cts) buf q13) as [[m q]|e| |] eqn:E15; try discriminate. pose proof (keeps_table_metadata _ _ _ _ _ K13 E15).
      apply pays_table_metadata in E15. unfold ret in E14. inv E14. cbn [opt_weight]. lia.
    - unfold ret in E14. inv E14. cbn [opt_weight]. lia. }
  unfold ret in E. inv E. unfold table_weight. cbn [tb_database tb_table tb_types tb_nullable tb_metadata]. rewrite map_length. lia.
Qed.

(* ---- MySQL sets ---- *)
Definition set_weight (s : gtid_set) : nat := list_sum (map (fun kv => 24 + 16 * length (us_ivs (snd kv))) s).
Lemma put_weight k us : forall m, set_weight (hm_put k us m) <= set_weight m + (24 + 16 * length (us_ivs us)).
Proof.
  unfold set_weight. induction m as [|[k' v'] m IH]; [cbn; lia|]. cbn [hm_put]. destruct (text_eqb k k'); cbn [map list_sum fold_right snd] in *; unfold list_sum in *; lia.
Qed.
Lemma puts_weight uss : forall m, set_weight (fold_left (fun m us => hm_put (utext (us_source us)) us m) uss m) <= set_weight m + list_sum (map (fun us => 24 + 16 * length (us_ivs us)) uss).
Proof.
  induction uss as [|us uss IH]; intros m; cbn [fold_left map list_sum fold_right]; [lia|]. etransitivity; [apply IH|]. pose proof (put_weight (utext (us_source us)) us m). unfold list_sum in *. lia.
Qed.
Lemma pays_prev bl : pays (fun s => 8 + set_weight s) (parse_prev_gtids bl).
Proof.
  unfold parse_prev_gtids. eapply pays_bind; [apply pays_le|]. intros n. cbn beta.
  apply (pays_bind (fun l => list_sum (map (fun us => 24 + 16 * length (us_ivs us)) l))).
  - apply (pays_loop (fun us => 24 + 16 * length (us_ivs us))). unfold prev_uuid_set.
    eapply pays_bind; [apply pays_bytes|]. intros src. cbn beta. eapply pays_bind; [apply pays_le|]. intros k. cbn beta.
    apply (pays_bind (fun l => list_sum (map (fun _ => 16) l))).
    + apply pays_loop. unfold prev_interval. eapply pays_bind; [apply pays_le|]. intros a. eapply pays_bind; [apply pays_le|]. intros b. eapply pays_bind; [apply pays_lift|]. intros c. apply pays_ret. lia.
    + intros ivs. apply pays_ret. cbn beta. cbn [us_ivs]. rewrite list_sum_const. change (N.to_nat 16) with 16. lia.
  - intros uss. cbn beta. apply pays_ret. pose proof (puts_weight uss gtid_set_new). change (set_weight gtid_set_new) with 0 in *. lia.
Qed.
Lemma keeps_prev bl : keeps (parse_prev_gtids bl).
Proof.
  apply keeps_bind; [ke|intros]. apply keeps_bind; [|intros; ke]. apply keeps_ploop. apply keeps_bind; [ke|intros]. apply keeps_bind; [ke|intros]. apply keeps_bind; [|intros; ke].
  apply keeps_ploop. apply keeps_bind; [ke|intros]. apply keeps_bind; [ke|intros]. apply keeps_bind; [ke|intros; ke].
Qed.

(* ---- row events ---- *)
Lemma rows_event_spec bl ts v buf r pos' : parse_rows_event bl ts v buf 0 = Ok (r, pos') -> event_weight (EvWrite r) <= length buf.
Proof.
  intros E. unfold parse_rows_event, pbind at 1 in E. destruct (parse_head v buf 0) as [[[[id fl] n] q1]|e| |] eqn:E1; try discriminate. apply bounded_head in E1.
  unfold pbind at 1 in E. destruct (read_bitmap_le n buf q1) as [[ps q2]|e| |] eqn:E2; try discriminate. pose proof (keeps_bitmap _ _ _ _ _ E1 E2) as K2. apply pays_bitmap in E2.
  unfold pbind, parse_row_list in E. destruct (tables_get id ts) as [t|]; [|discriminate].
  destruct (pwhile (parse_row bl t ps (bits_number ps)) buf q2) as [[rs q3]|e| |] eqn:E3; try discriminate.
  pose proof (keeps_while _ (keeps_row bl t ps (bits_number ps)) _ _ _ _ K2 E3) as K3. apply (pays_while _ _ (pays_row bl t ps)) in E3. unfold ret in E. inv E. cbn [event_weight re_present re_rows]. lia.
Qed.
Lemma update_event_spec bl ts v buf r pos' : parse_update_event bl ts v buf 0 = Ok (r, pos') -> event_weight (EvUpdate r) <= length buf.
Proof.
  intros E. unfold parse_update_event, pbind at 1 in E. destruct (parse_head v buf 0) as [[[[id fl] n] q1]|e| |] eqn:E1; try discriminate. apply bounded_head in E1.
  unfold pbind at 1 in E. destruct (read_bitmap_le n buf q1) as [[b q2]|e| |] eqn:E2; try discriminate. pose proof (keeps_bitmap _ _ _ _ _ E1 E2) as K2. apply pays_bitmap in E2.
  unfold pbind at 1 in E. destruct (read_bitmap_le n buf q2) as [[a q3]|e| |] eqn:E3; try discriminate. pose proof (keeps_bitmap _ _ _ _ _ K2 E3) as K3. apply pays_bitmap in E3.
  unfold pbind at 1, parse_update_row_list in E. destruct (tables_get id ts) as [t|]; [|discriminate].
  match type of E with match pwhile ?p _ _ with _ => _ end = _ => set (rowp := p) in E; destruct (pwhile rowp buf q3) as [[rs q4]|e| |] eqn:E4; try discriminate end.
  assert (KR : keeps rowp) by (apply keeps_bind; [apply keeps_row|intros; apply keeps_bind; [apply keeps_row|intros; ke]]).
  assert (PR : pays (fun p => row_weight b (fst p) + row_weight a (snd p)) rowp).
  { eapply pays_bind; [apply pays_row|]. intros x. cbn beta. eapply pays_bind; [apply pays_row|]. intros y. cbn beta. apply pays_ret. cbn [fst snd]. lia. }
  pose proof (keeps_while _ KR _ _ _ _ K3 E4) as K4. apply (pays_while _ _ PR) in E4. unfold ret in E. inv E. cbn [event_weight ue_before ue_after ue_rows]. lia.
Qed.

(* ---- other events ---- *)
Lemma rest_spec buf pos t pos' : read_to_string buf pos = Ok (t, pos') -> text_weight t = length buf - pos.
Proof.
  unfold read_to_string, pbind, read_rest. destruct (utf8_decode (skipn pos buf)) as [u|] eqn:E; [|discriminate]. unfold ret. intros H. assert (u = t) as -> by congruence.
  apply utf8_decode_sound in E. unfold text_weight. rewrite (proj2 E). apply skipn_length.
Qed.
Lemma query_spec buf q pos' : parse_query buf 0 = Ok (q, pos') -> event_weight (EvQuery q) <= length buf.
Proof.
  intros E. unfold parse_query in E.
  unfold pbind at 1 in E. destruct (read_u32 buf 0) as [[th q1]|e| |] eqn:E1; try discriminate. apply pays_le in E1.
  unfold pbind at 1 in E. destruct (read_u32 buf q1) as [[du q2]|e| |] eqn:E2; try discriminate. apply pays_le in E2.
  unfold pbind at 1 in E. destruct (read_u8 buf q2) as [[dl q3]|e| |] eqn:E3; try discriminate. apply pays_le in E3.
  unfold pbind at 1 in E. destruct (read_u16 buf q3) as [[er q4]|e| |] eqn:E4; try discriminate. apply pays_le in E4.
  unfold pbind at 1 in E. destruct (read_u16 buf q4) as [[sl q5]|e| |] eqn:E5; try discriminate. assert (K5 : q5 <= length buf) by (apply (bounded_read_le 2) in E5; [exact E5|lia]). apply pays_le in E5.
  unfold pbind at 1 in E. destruct (read_bytes sl buf q5) as [[st q6]|e| |] eqn:E6; try discriminate. pose proof (keeps_read_bytes _ _ _ _ _ K5 E6) as K6. apply pays_bytes_length in E6.
  unfold pbind at 1 in E. destruct (read_string dl buf q6) as [[db q7]|e| |] eqn:E7; try discriminate. pose proof (keeps_string _ _ _ _ _ K6 E7) as K7. apply pays_string in E7.
  unfold pbind at 1 in E. destruct (seek_cur 1 buf q7) as [[u8 q8]|e| |] eqn:E8; try discriminate. apply seek_fwd in E8; [|lia].
  unfold pbind in E. destruct (read_to_string buf q8) as [[sql q9]|e| |] eqn:E9; try discriminate. apply rest_spec in E9. unfold ret in E. inv E. cbn [event_weight q_status q_database q_sql]. lia.
Qed.
Lemma uservar_spec buf v pos' : parse_uservar buf 0 = Ok (v, pos') -> event_weight (EvUserVar v) <= length buf.
Proof.
  assert (P : pays (fun v => event_weight (EvUserVar v)) parse_uservar).
  { unfold parse_uservar. eapply pays_bind; [apply pays_le|]. intros nl. eapply pays_bind; [apply pays_string|]. intros name. cbn beta. eapply pays_bind; [apply pays_le|]. intros nul. cbn beta.
    destruct (negb _); [apply pays_ret; cbn [event_weight uv_name uv_value opt_weight vv_value]; cbn beta; lia|]. eapply pays_bind; [apply pays_le|]. intros ty. eapply pays_bind; [apply pays_le|]. intros co. eapply pays_bind; [apply pays_le|]. intros vl.
    eapply pays_bind; [apply pays_string|]. intros x. cbn beta. eapply pays_bind; [apply pays_le|]. intros fl. apply pays_ret. cbn [event_weight uv_name uv_value opt_weight vv_value]. lia. }
  intros E. pose proof (P _ _ _ _ E) as E1. assert (K : keeps parse_uservar); [|apply K in E; lia].
  unfold parse_uservar. apply keeps_bind; [ke|intros]. apply keeps_bind; [ke|intros]. apply keeps_bind; [ke|intros]. destruct (negb _); [ke|].
  repeat (apply keeps_bind; [ke|intros]). ke.
Qed.
Lemma before_nul_length bs : length (before_nul bs) <= length bs.
Proof. induction bs as [|b bs IH]; [cbn; lia|]. change (before_nul (b :: bs)) with (if (b2n b =? 0)%N then [] else b :: before_nul bs). destruct (_ =? _)%N; cbn [length]; lia. Qed.
Lemma format_spec bl h buf f pos' : parse_format_description bl h buf 0 = Ok (f, pos') -> event_weight (EvFormat f) <= length buf.
Proof.
  intros E. unfold parse_format_description in E. unfold pbind at 1 in E. destruct (read_u16 buf 0) as [[ver q1]|e| |] eqn:E1; try discriminate.
  assert (K1 : q1 <= length buf) by (apply (bounded_read_le 2) in E1; [exact E1|lia]). apply pays_le in E1.
  unfold pbind at 1 in E. destruct (read_bytes 50 buf q1) as [[sv q2]|e| |] eqn:E2; try discriminate. pose proof (keeps_read_bytes _ _ _ _ _ K1 E2) as K2. apply pays_bytes_length in E2.
  unfold pbind at 1, lift at 1 in E. destruct (utf8_decode (before_nul sv)) as [name|] eqn:E3; [|discriminate]. apply utf8_decode_sound in E3.
  assert (event_weight (EvFormat f) = 2 + text_weight name).
  { revert E. unfold pbind. repeat match goal with |- context [match ?x with Ok _ => _ | _ => _ end] => destruct x as [[? ?]|?| |]; try discriminate end. unfold ret. intros E. inv E. reflexivity. }
  pose proof (before_nul_length sv). unfold text_weight in *. rewrite (proj2 E3) in *. lia.
Qed.
Theorem body_weight bl ts h buf e pos' : event_body bl ts h buf 0 = Ok (e, pos') -> event_weight e <= length buf.
Proof.
  unfold event_body. cbv zeta.
  assert (M : forall A (c : A -> event) (p : parser A), (forall a q, p buf 0 = Ok (a, q) -> event_weight (c a) <= length buf) -> pmap c p buf 0 = Ok (e, pos') -> event_weight e <= length buf).
  { intros A c p H E. unfold pmap, pbind in E. destruct (p buf 0) as [[a q]|er| |] eqn:E1; try discriminate. unfold ret in E. inv E. exact (H _ _ eq_refl). }
  assert (S : forall A (c : A -> event) (p : parser A), pays (fun a => event_weight (c a)) p -> keeps p -> pmap c p buf 0 = Ok (e, pos') -> event_weight e <= length buf).
  { intros A c p Pw K. apply M. intros a q E. pose proof (Pw _ _ _ _ E). apply K in E; lia. }
  Local Ltac nx := match goal with |- (if ?c then _ else _) _ _ = _ -> _ => destruct c end.
  nx; [apply M; intros a q; apply format_spec|].
  nx; [apply M; intros a q E; apply table_map_spec in E; cbn [event_weight]; lia|].
  nx; [apply M; intros a q E; apply rest_spec in E; cbn [event_weight]; lia|].
  nx. { apply M. intros a q E. unfold parse_rotate, pbind in E. destruct (read_u64 buf 0) as [[p q1]|er| |] eqn:E1; try discriminate. assert (K1 : q1 <= length buf) by (apply (bounded_read_le 8) in E1; [exact E1|lia]). apply pays_le in E1.
    destruct (read_to_string buf q1) as [[f q2]|er| |] eqn:E2; try discriminate. apply rest_spec in E2. unfold ret in E. inv E. cbn [event_weight ro_file]. lia. }
  nx; [apply S; [eapply pays_bind; [apply pays_le|]; intros; eapply pays_bind; [apply pays_le|]; intros; apply pays_ret; cbn [event_weight uv_name uv_value opt_weight vv_value]; cbn beta; lia|repeat (apply keeps_bind; [ke|intros]); ke]|].
  nx; [apply M; intros a q; apply uservar_spec|].
  nx; [apply M; intros a q; apply query_spec|].
  nx; [apply S; [apply pays_le|apply keeps_read_le]|].
  nx; [apply M; intros a q; apply rows_event_spec|].
  nx; [apply M; intros a q; apply update_event_spec|].
  nx; [apply M; intros a q; apply rows_event_spec|].
  nx; [apply M; intros a q; apply rows_event_spec|].
  nx; [apply M; intros a q; apply update_event_spec|].
  nx; [apply M; intros a q; apply rows_event_spec|].
  nx. { apply M. intros a q E. unfold parse_rows_query_mysql, pbind in E. destruct (seek_cur 1 buf 0) as [[u q1]|er| |]; try discriminate. apply rest_spec in E. cbn [event_weight]. lia. }
  nx; [apply S; [eapply pays_bind; [apply pays_le|]; intros; eapply pays_bind; [apply pays_bytes|]; intros; eapply pays_bind; [apply pays_le|]; intros; apply pays_ret; cbn [event_weight uv_name uv_value opt_weight vv_value]; cbn beta; lia|repeat (apply keeps_bind; [ke|intros]); ke]|].
  nx; [apply S; [apply pays_prev|apply keeps_prev]|].
  nx; [apply S; [eapply pays_bind; [apply pays_le|]; intros; eapply pays_bind; [apply pays_le|]; intros; eapply pays_bind; [apply pays_le|]; intros; apply pays_ret; cbn [event_weight uv_name uv_value opt_weight vv_value]; cbn beta; lia|repeat (apply keeps_bind; [ke|intros]); ke]|].
  nx. { apply S.
    - eapply pays_bind; [apply pays_le|]. intros n. cbn beta. eapply pays_weaken; [|apply (pays_loop (fun _ => 16))].
      + intros l. cbn beta. rewrite list_sum_const. cbn [event_weight]. lia.
      + eapply pays_bind; [apply pays_le|]. intros. eapply pays_bind; [apply pays_le|]. intros. eapply pays_bind; [apply pays_le|]. intros. apply pays_ret. lia.
    - apply keeps_bind; [ke|intros]. apply keeps_ploop. repeat (apply keeps_bind; [ke|intros]). ke. }
  nx; [apply M; intros a q E; apply rest_spec in E; cbn [event_weight]; lia|].
  unfold ret. intros E. inv E. cbn. lia.
Qed.

(* ---- rows without any column present: the loop would not end, so there are none ---- *)
Definition stays {A} (p : parser A) : Prop := forall buf pos a pos', p buf pos = Ok (a, pos') -> pos' = pos.
Lemma columns_stay bl types : forall metas ps nulls, ~ In true ps -> stays (parse_columns bl types metas ps nulls).
Proof.
  induction types as [|ty types IH]; intros metas ps nulls H buf pos a pos' E; cbn [parse_columns] in E; [unfold ret in E; congruence|].
  destruct ps as [|[|] ps]; [discriminate|exfalso; apply H; now left|]. unfold pbind in E.
  destruct (parse_columns bl types (tl metas) ps nulls buf pos) as [[r q]|e| |] eqn:E1; try discriminate. apply IH in E1; [|intros X; apply H; now right]. unfold ret in E. congruence.
Qed.
Lemma no_bits ps : ~ In true ps -> bits_number ps = 0%N.
Proof. unfold bits_number. intros H. induction ps as [|[|] ps IH]; cbn [filter]; [reflexivity|exfalso; apply H; now left|]. apply IH. intros X. apply H. now right. Qed.
Lemma row_stays bl t ps : ~ In true ps -> stays (parse_row bl t ps (bits_number ps)).
Proof.
  intros H buf pos a pos' E. rewrite (no_bits ps H) in E. unfold parse_row, pbind at 1 in E. destruct (read_bitmap_le 0 buf pos) as [[nu q]|e| |] eqn:E1; try discriminate.
  apply columns_stay in E; [|exact H]. assert (q = pos); [|congruence]. clear E. unfold read_bitmap_le, pbind, lift in E1. change ((0 + 7) / 8)%N with 0%N in E1. destruct (alloc 0); try discriminate.
  unfold read_bytes in E1. destruct (rbind _ _) as [[bs q']|e| |] eqn:E2; try discriminate. unfold ret in E1. assert (q' = q) as -> by congruence. clear E1.
  destruct (alloc 0); try discriminate. cbn [rbind] in E2. destruct (N.ltb_spec (N.of_nat (length buf - pos)) 0); [discriminate|].
  assert (q = pos + N.to_nat 0) by congruence. lia.
Qed.
Lemma while_stays {A} (p : parser A) : stays p -> forall buf pos l pos', pwhile p buf pos = Ok (l, pos') -> l = [].
Proof.
  intros H buf pos l pos'. unfold pwhile. generalize (S (length buf)) as fuel. intros fuel.
  assert (G : forall fuel pos, pos < length buf -> forall r, pwhile_aux fuel p buf pos <> Ok r).
  { clear fuel pos l pos'. induction fuel as [|f IH]; intros pos L r; cbn [pwhile_aux]; (destruct (Nat.ltb_spec pos (length buf)); [|lia]); [discriminate|].
    unfold pbind. destruct (p buf pos) as [[x q]|e| |] eqn:E; try discriminate. rewrite (H _ _ _ _ E).
    destruct (pwhile_aux f p buf pos) as [r'|e| |] eqn:E2; try discriminate. now apply IH in E2. }
  intros E. destruct (Nat.ltb_spec pos (length buf)) as [L|L]; [now apply G in E|]. destruct fuel; cbn [pwhile_aux] in E; (destruct (Nat.ltb_spec pos (length buf)); [lia|]); congruence.
Qed.
Lemma rows_present bl ts v buf r pos' : parse_rows_event bl ts v buf 0 = Ok (r, pos') -> In true (re_present r) \/ re_rows r = [].
Proof.
  intros E. unfold parse_rows_event, pbind at 1 in E. destruct (parse_head v buf 0) as [[[[id fl] n] q1]|e| |]; try discriminate.
  unfold pbind at 1 in E. destruct (read_bitmap_le n buf q1) as [[ps q2]|e| |]; try discriminate.
  unfold pbind, parse_row_list in E. destruct (tables_get id ts) as [t|]; [|discriminate].
  destruct (pwhile (parse_row bl t ps (bits_number ps)) buf q2) as [[rs q3]|e| |] eqn:E3; try discriminate. unfold ret in E. inv E. cbn [re_present re_rows].
  destruct (true_dec ps) as [H|H]; [now left|right]. revert E3. apply while_stays. now apply row_stays.
Qed.
Lemma updates_present bl ts v buf u pos' : parse_update_event bl ts v buf 0 = Ok (u, pos') -> In true (ue_before u) \/ In true (ue_after u) \/ ue_rows u = [].
Proof.
  intros E. unfold parse_update_event, pbind at 1 in E. destruct (parse_head v buf 0) as [[[[id fl] n] q1]|e| |]; try discriminate.
  unfold pbind at 1 in E. destruct (read_bitmap_le n buf q1) as [[b q2]|e| |]; try discriminate.
  unfold pbind at 1 in E. destruct (read_bitmap_le n buf q2) as [[a q3]|e| |]; try discriminate.
  unfold pbind at 1, parse_update_row_list in E. destruct (tables_get id ts) as [t|]; [|discriminate].
  match type of E with match pwhile ?p _ _ with _ => _ end = _ => set (rowp := p) in E; destruct (pwhile rowp buf q3) as [[rs q4]|e| |] eqn:E4; try discriminate end.
  unfold ret in E. inv E. cbn [ue_before ue_after ue_rows]. destruct (true_dec b) as [H|H]; [now left|]. destruct (true_dec a) as [H2|H2]; [tauto|]. do 2 right. revert E4. apply while_stays.
  intros buf0 pos x q E. unfold rowp, pbind at 1 in E. destruct (parse_row bl t b (bits_number b) buf0 pos) as [[rb p1]|e| |] eqn:Y1; try discriminate. unfold pbind in E.
  destruct (parse_row bl t a (bits_number a) buf0 p1) as [[ra p2]|e| |] eqn:Y2; try discriminate. apply row_stays in Y1; [|exact H]. apply row_stays in Y2; [|exact H2]. unfold ret in E. inv E. lia.
Qed.
Lemma filter_some ps : In true ps -> 1 <= bits_weight (filter (fun b => b) ps).
Proof. intros H. apply bits_number_pos in H. unfold bits_number in H. unfold bits_weight. apply Nat.div_le_lower_bound; lia. Qed.
Lemma sum_ge {A} (w : A -> nat) l : (forall x, 1 <= w x) -> length l <= list_sum (map w l).
Proof. intros H. induction l as [|x l IH]; [cbn; lia|]. cbn [map list_sum fold_right length] in *. specialize (H x). unfold list_sum in *. lia. Qed.
