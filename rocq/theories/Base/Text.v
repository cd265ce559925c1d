(* Rust strings: sequences of Unicode scalar values, with UTF-8. *)
From Coq Require Import Strings.String Strings.Ascii.
From Verif Require Import Base.Tac Base.Bytes.
Local Open Scope N_scope.

Definition text := list N.

(* literal *)
Definition tx (s : string) : text := map N_of_ascii (list_ascii_of_string s).

Fixpoint text_eqb (a b : text) : bool :=
  match a, b with
  | [], [] => true
  | x :: a', y :: b' => (x =? y) && text_eqb a' b'
  | _, _ => false
  end.

Lemma text_eqb_spec a b : reflect (a = b) (text_eqb a b).
Proof.
  revert b; induction a as [|x a IH]; intros [|y b]; cbn [text_eqb]; try (constructor; congruence).
  destruct (N.eqb_spec x y) as [->|Hn]; cbn [andb].
  - destruct (IH b) as [->|Hn]; constructor; congruence.
  - constructor; congruence.
Qed.
Lemma text_eqb_refl a : text_eqb a a = true.
Proof. destruct (text_eqb_spec a a); congruence. Qed.

(* Unicode scalar value *)
Definition scalar (c : N) : bool := (c <? 0xD800) || ((0xE000 <=? c) && (c <? 0x110000)).
Definition valid_text (t : text) : Prop := Forall (fun c => scalar c = true) t.

(* UTF-8 encoding of one scalar value: core::char::encode_utf8_raw *)
Definition utf8_char (c : N) : list byte :=
  if c <? 0x80 then [n2b c]
  else if c <? 0x800 then [n2b (0xC0 + c / 64); n2b (0x80 + c mod 64)]
  else if c <? 0x10000 then
    [n2b (0xE0 + c / 4096); n2b (0x80 + (c / 64) mod 64); n2b (0x80 + c mod 64)]
  else
    [n2b (0xF0 + c / 262144); n2b (0x80 + (c / 4096) mod 64); n2b (0x80 + (c / 64) mod 64); n2b (0x80 + c mod 64)].

Definition utf8_encode (t : text) : list byte := flat_map utf8_char t.

Definition cont (b : byte) : bool := (0x80 <=? b2n b) && (b2n b <? 0xC0).

(* core::str::from_utf8 (run_utf8_validation): shortest form only, no surrogates, at most U+10FFFF. *)
Fixpoint utf8_decode (bs : list byte) : option text :=
  match bs with
  | [] => Some []
  | b0 :: r0 =>
    let n0 := b2n b0 in
    if n0 <? 0x80 then option_map (cons n0) (utf8_decode r0)
    else match r0 with
    | [] => None
    | b1 :: r1 =>
      let n1 := b2n b1 in
      if (0xC2 <=? n0) && (n0 <? 0xE0) then
        if cont b1 then option_map (cons ((n0 - 0xC0) * 64 + (n1 - 0x80))) (utf8_decode r1) else None
      else match r1 with
      | [] => None
      | b2 :: r2 =>
        let n2 := b2n b2 in
        if (0xE0 <=? n0) && (n0 <? 0xF0) then
          if cont b1 && cont b2 && ((0xE0 <? n0) || (0xA0 <=? n1)) && (negb (n0 =? 0xED) || (n1 <? 0xA0))
          then option_map (cons ((n0 - 0xE0) * 4096 + (n1 - 0x80) * 64 + (n2 - 0x80))) (utf8_decode r2)
          else None
        else match r2 with
        | [] => None
        | b3 :: r3 =>
          let n3 := b2n b3 in
          if (0xF0 <=? n0) && (n0 <? 0xF5) then
            if cont b1 && cont b2 && cont b3 && ((0xF0 <? n0) || (0x90 <=? n1)) && ((n0 <? 0xF4) || (n1 <? 0x90))
            then option_map (cons ((n0 - 0xF0) * 262144 + (n1 - 0x80) * 4096 + (n2 - 0x80) * 64 + (n3 - 0x80)))
                   (utf8_decode r3)
            else None
          else None
        end
      end
    end
  end.

Lemma utf8_decode_char c r : scalar c = true ->
  utf8_decode (utf8_char c ++ r) = option_map (cons c) (utf8_decode r).
Proof.
  unfold scalar. intros Hs. unfold utf8_char.
  destruct (N.ltb_spec c 0x80) as [H1|H1].
  { cbn [app utf8_decode]. rewrite b2n_n2b by lia.
    destruct (N.ltb_spec c 0x80); [reflexivity|lia]. }
  destruct (N.ltb_spec c 0x800) as [H2|H2].
  { cbn [app utf8_decode]. unfold cont. rewrite !b2n_n2b by lia.
    destruct (N.ltb_spec (0xC0 + c / 64) 0x80); [lia|].
    replace ((0xC2 <=? 0xC0 + c / 64) && (0xC0 + c / 64 <? 0xE0)) with true by lia.
    replace ((0x80 <=? 0x80 + c mod 64) && (0x80 + c mod 64 <? 0xC0)) with true by lia.
    f_equal. f_equal. lia. }
  destruct (N.ltb_spec c 0x10000) as [H3|H3].
  { cbn [app utf8_decode]. unfold cont. rewrite !b2n_n2b by lia.
    destruct (N.ltb_spec (0xE0 + c / 4096) 0x80); [lia|].
    replace ((0xC2 <=? 0xE0 + c / 4096) && (0xE0 + c / 4096 <? 0xE0)) with false by lia.
    replace ((0xE0 <=? 0xE0 + c / 4096) && (0xE0 + c / 4096 <? 0xF0)) with true by lia.
    match goal with |- (if ?b then _ else _) = _ => replace b with true end.
    - f_equal. f_equal. lia.
    - symmetry. rewrite !andb_true_iff, !orb_true_iff, negb_true_iff. repeat split; lia. }
  assert (H4 : c < 0x110000) by lia.
  cbn [app utf8_decode]. unfold cont. rewrite !b2n_n2b by lia.
  destruct (N.ltb_spec (0xF0 + c / 262144) 0x80); [lia|].
  replace ((0xC2 <=? 0xF0 + c / 262144) && (0xF0 + c / 262144 <? 0xE0)) with false by lia.
  replace ((0xE0 <=? 0xF0 + c / 262144) && (0xF0 + c / 262144 <? 0xF0)) with false by lia.
  replace ((0xF0 <=? 0xF0 + c / 262144) && (0xF0 + c / 262144 <? 0xF5)) with true by lia.
  match goal with |- (if ?b then _ else _) = _ => replace b with true end.
  - f_equal. f_equal. lia.
  - symmetry. rewrite !andb_true_iff, !orb_true_iff. repeat split; lia.
Qed.

Theorem utf8_decode_encode t : valid_text t -> utf8_decode (utf8_encode t) = Some t.
Proof.
  induction 1 as [|c t Hc Ht IH]; cbn [utf8_encode flat_map]; [reflexivity|].
  rewrite utf8_decode_char by exact Hc. unfold utf8_encode in IH. rewrite IH. reflexivity.
Qed.

Lemma utf8_decode_sound_len n : forall bs, (List.length bs <= n)%nat -> forall t, utf8_decode bs = Some t ->
  valid_text t /\ utf8_encode t = bs.
Proof.
  induction n as [|n IH]; intros bs Hn t Hd.
  { destruct bs; [|cbn [List.length] in Hn; lia]. cbn in Hd. inv Hd. split; [constructor|reflexivity]. }
  destruct bs as [|b0 r0]; [cbn in Hd; inv Hd; split; [constructor|reflexivity]|].
  cbn [utf8_decode] in Hd. cbn [List.length] in Hn.
  assert (Hstep : forall c r, (List.length r <= n)%nat -> scalar c = true ->
            option_map (cons c) (utf8_decode r) = Some t ->
            valid_text t /\ utf8_encode t = utf8_char c ++ r).
  { intros c r Hr Hc Ho. destruct (utf8_decode r) as [t'|] eqn:E; [|discriminate].
    cbn in Ho. inv Ho. destruct (IH r Hr t' E) as [Hv He]. split.
    - constructor; assumption.
    - cbn [utf8_encode flat_map]. unfold utf8_encode in He. now rewrite He. }
  pose proof (b2n_lt b0) as L0.
  destruct (N.ltb_spec (b2n b0) 0x80) as [H1|H1].
  { apply Hstep in Hd; [|lia|unfold scalar; lia]. destruct Hd as [Hv He]; split; [exact Hv|].
    rewrite He. unfold utf8_char. destruct (N.ltb_spec (b2n b0) 0x80); [|lia].
    now rewrite n2b_b2n. }
  destruct r0 as [|b1 r1]; [discriminate|]. cbn [List.length] in Hn. pose proof (b2n_lt b1) as L1.
  destruct ((0xC2 <=? b2n b0) && (b2n b0 <? 0xE0)) eqn:E2.
  { destruct (cont b1) eqn:C1; [|discriminate]. unfold cont in C1.
    apply Hstep in Hd; [|lia|unfold scalar; lia]. destruct Hd as [Hv He]; split; [exact Hv|].
    rewrite He. unfold utf8_char.
    set (c := (b2n b0 - 0xC0) * 64 + (b2n b1 - 0x80)) in *.
    destruct (N.ltb_spec c 0x80); [lia|]. destruct (N.ltb_spec c 0x800); [|lia].
    replace (0xC0 + c / 64) with (b2n b0) by (unfold c; lia).
    replace (0x80 + c mod 64) with (b2n b1) by (unfold c; lia).
    now rewrite !n2b_b2n. }
  destruct r1 as [|b2 r2]; [discriminate|]. cbn [List.length] in Hn. pose proof (b2n_lt b2) as L2.
  destruct ((0xE0 <=? b2n b0) && (b2n b0 <? 0xF0)) eqn:E3.
  { match type of Hd with (if ?b then _ else _) = _ => destruct b eqn:C; [|discriminate] end.
    unfold cont in C. rewrite !andb_true_iff, !orb_true_iff, negb_true_iff in C.
    destruct C as [[[[C1 C1'] [C2 C2']] C3] C4].
    set (c := (b2n b0 - 0xE0) * 4096 + (b2n b1 - 0x80) * 64 + (b2n b2 - 0x80)) in *.
    assert (Hc : scalar c = true).
    { unfold scalar. rewrite orb_true_iff, andb_true_iff. unfold c. lia. }
    apply Hstep in Hd; [|lia|exact Hc]. destruct Hd as [Hv He]; split; [exact Hv|].
    rewrite He. unfold utf8_char.
    destruct (N.ltb_spec c 0x80); [unfold c in *; lia|]. destruct (N.ltb_spec c 0x800); [unfold c in *; lia|].
    destruct (N.ltb_spec c 0x10000); [|unfold c in *; lia].
    replace (0xE0 + c / 4096) with (b2n b0) by (unfold c; lia).
    replace (0x80 + (c / 64) mod 64) with (b2n b1) by (unfold c; lia).
    replace (0x80 + c mod 64) with (b2n b2) by (unfold c; lia).
    now rewrite !n2b_b2n. }
  destruct r2 as [|b3 r3]; [discriminate|]. cbn [List.length] in Hn. pose proof (b2n_lt b3) as L3.
  destruct ((0xF0 <=? b2n b0) && (b2n b0 <? 0xF5)) eqn:E4; [|discriminate].
  match type of Hd with (if ?b then _ else _) = _ => destruct b eqn:C; [|discriminate] end.
  unfold cont in C. rewrite !andb_true_iff, !orb_true_iff in C.
  destruct C as [[[[[C1 C1'] [C2 C2']] [C3 C3']] C4] C5].
  set (c := (b2n b0 - 0xF0) * 262144 + (b2n b1 - 0x80) * 4096 + (b2n b2 - 0x80) * 64 + (b2n b3 - 0x80)) in *.
  assert (Hc : scalar c = true).
  { unfold scalar. rewrite orb_true_iff, andb_true_iff. unfold c. lia. }
  apply Hstep in Hd; [|lia|exact Hc]. destruct Hd as [Hv He]; split; [exact Hv|].
  rewrite He. unfold utf8_char.
  destruct (N.ltb_spec c 0x80); [unfold c in *; lia|]. destruct (N.ltb_spec c 0x800); [unfold c in *; lia|].
  destruct (N.ltb_spec c 0x10000); [unfold c in *; lia|].
  replace (0xF0 + c / 262144) with (b2n b0) by (unfold c; lia).
  replace (0x80 + (c / 4096) mod 64) with (b2n b1) by (unfold c; lia).
  replace (0x80 + (c / 64) mod 64) with (b2n b2) by (unfold c; lia).
  replace (0x80 + c mod 64) with (b2n b3) by (unfold c; lia).
  now rewrite !n2b_b2n.
Qed.

Theorem utf8_decode_sound bs t : utf8_decode bs = Some t -> valid_text t /\ utf8_encode t = bs.
Proof. apply (utf8_decode_sound_len (List.length bs) bs (Nat.le_refl _)). Qed.

Lemma utf8_encode_app a b : utf8_encode (a ++ b) = utf8_encode a ++ utf8_encode b.
Proof. unfold utf8_encode. apply flat_map_app. Qed.

Lemma valid_text_app a b : valid_text (a ++ b) <-> valid_text a /\ valid_text b.
Proof. unfold valid_text. apply Forall_app. Qed.

Definition ascii_text (t : text) : Prop := Forall (fun c => c < 128) t.
Lemma ascii_valid t : ascii_text t -> valid_text t.
Proof. apply Forall_impl. intros c H. unfold scalar. lia. Qed.
Lemma ascii_encode_length t : ascii_text t -> List.length (utf8_encode t) = List.length t.
Proof.
  induction 1 as [|c t Hc Ht IH]; [reflexivity|]. cbn [utf8_encode flat_map List.length].
  rewrite app_length. unfold utf8_encode in IH. rewrite IH. unfold utf8_char.
  destruct (N.ltb_spec c 0x80); [reflexivity|lia].
Qed.
