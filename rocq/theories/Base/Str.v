(* Model of the std::str / core::num / hex functions the code uses, with the laws needed later. *)
From Coq Require Import Sorting.Permutation Sorting.Sorted.
From Verif Require Import Base.Tac Base.Bytes Base.Text Base.Res.
Local Open Scope N_scope.

(* ---- str::split(char) : always at least one piece ---- *)
Fixpoint split_on (c : N) (t : text) : list text :=
  match t with
  | [] => [[]]
  | x :: r =>
    if x =? c then [] :: split_on c r
    else match split_on c r with
         | [] => [[x]]           (* unreachable: split_on is never empty *)
         | p :: ps => (x :: p) :: ps
         end
  end.

(* [String]::join *)
Fixpoint join (sep : text) (l : list text) : text :=
  match l with
  | [] => []
  | [x] => x
  | x :: r => x ++ sep ++ join sep r
  end.

(* str::replace(c, "") for a one-character pattern *)
Definition remove_char (c : N) (t : text) : text := filter (fun x => negb (x =? c)) t.

(* char::is_whitespace = Unicode White_Space *)
Definition is_ws (c : N) : bool :=
  ((9 <=? c) && (c <=? 13)) || (c =? 32) || (c =? 0x85) || (c =? 0xA0) || (c =? 0x1680)
  || ((0x2000 <=? c) && (c <=? 0x200A)) || (c =? 0x2028) || (c =? 0x2029) || (c =? 0x202F)
  || (c =? 0x205F) || (c =? 0x3000).
Fixpoint trim_start (t : text) : text :=
  match t with
  | [] => []
  | x :: r => if is_ws x then trim_start r else t
  end.
Definition trim_end (t : text) : text := rev (trim_start (rev t)).
(* str::trim *)
Definition trim (t : text) : text := trim_end (trim_start t).

(* ---- decimal numbers ---- *)
Definition is_digit (c : N) : bool := (48 <=? c) && (c <=? 57).
Fixpoint dec_aux (fuel : nat) (n : N) : text :=
  match fuel with
  | O => []
  | S f => (if n <? 10 then [] else dec_aux f (n / 10)) ++ [48 + n mod 10]
  end.
(* u64/u32::to_string *)
Definition dec_text (n : N) : text := dec_aux (S (N.to_nat (N.log2 n))) n.

Definition digits_val (t : text) : N := fold_left (fun a c => a * 10 + (c - 48)) t 0.
(* core::num::from_str_radix(10) for an unsigned type with m values: optional '+', at least one digit,
   only digits, no overflow. *)
Definition strip_plus (t : text) : text :=
  match t with
  | c :: (_ :: _) => if c =? 43 then tl t else t
  | _ => t
  end.
Definition parse_uint (m : N) (t : text) : res N :=
  let ds := strip_plus t in
  match ds with
  | [] => Err EParseInt
  | _ => if forallb is_digit ds
         then if digits_val ds <? m then Ok (digits_val ds) else Err EParseInt
         else Err EParseInt
  end.

(* ---- hex crate ---- *)
Definition hex_char (n : N) : N := if n <? 10 then 48 + n else 87 + n.
Definition hex_encode (bs : list byte) : text :=
  flat_map (fun b => [hex_char (b2n b / 16); hex_char (b2n b mod 16)]) bs.
Definition hex_val (c : N) : option N :=
  if (48 <=? c) && (c <=? 57) then Some (c - 48)
  else if (97 <=? c) && (c <=? 102) then Some (c - 87)
  else if (65 <=? c) && (c <=? 70) then Some (c - 55)
  else None.
(* hex::decode works on the bytes of the string: odd byte length or a non-hex byte is an error.  A non-ASCII
   character contributes only non-hex bytes, so working on characters gives the same Ok results and the same
   error variant. *)
Fixpoint hex_decode (t : text) : option (list byte) :=
  match t with
  | [] => Some []
  | [_] => None
  | a :: b :: r =>
    match hex_val a, hex_val b, hex_decode r with
    | Some x, Some y, Some bs => Some (n2b (16 * x + y) :: bs)
    | _, _, _ => None
    end
  end.

(* ---- Vec<String>::sort: lexicographic (byte order of UTF-8 = code point order) ---- *)
Fixpoint text_leb (a b : text) : bool :=
  match a, b with
  | [], _ => true
  | _ :: _, [] => false
  | x :: a', y :: b' => if x <? y then true else if y <? x then false else text_leb a' b'
  end.
Fixpoint insert_text (x : text) (l : list text) : list text :=
  match l with
  | [] => [x]
  | y :: r => if text_leb x y then x :: l else y :: insert_text x r
  end.
Definition sort_texts (l : list text) : list text := fold_right insert_text [] l.

(* ======================= laws ======================= *)

Lemma split_on_nonempty c t : split_on c t <> [].
Proof.
  destruct t as [|x r]; cbn [split_on]; [discriminate|].
  destruct (x =? c); [discriminate|]. destruct (split_on c r); discriminate.
Qed.

Lemma split_on_clean c p : ~ In c p -> split_on c p = [p].
Proof.
  induction p as [|x p IH]; intros H; cbn [split_on]; [reflexivity|].
  destruct (N.eqb_spec x c) as [->|Hn]; [exfalso; apply H; now left|].
  rewrite IH; [reflexivity|]. intros Hin; apply H; now right.
Qed.

Lemma split_on_app c p r : ~ In c p -> split_on c (p ++ c :: r) = p :: split_on c r.
Proof.
  induction p as [|x p IH]; intros H; cbn [app split_on].
  - now rewrite N.eqb_refl.
  - destruct (N.eqb_spec x c) as [->|Hn]; [exfalso; apply H; now left|].
    rewrite IH; [reflexivity|]. intros Hin; apply H; now right.
Qed.

Lemma split_join c l : l <> [] -> Forall (fun p => ~ In c p) l -> split_on c (join [c] l) = l.
Proof.
  induction l as [|p l IH]; intros Hne Hf; [congruence|].
  inv Hf. destruct l as [|q l]; [cbn [join]; now apply split_on_clean|].
  cbn [join app]. rewrite split_on_app by assumption. f_equal. apply IH; [discriminate|assumption].
Qed.

Lemma join_split c t : join [c] (split_on c t) = t.
Proof.
  induction t as [|x r IH]; cbn [split_on]; [reflexivity|].
  destruct (N.eqb_spec x c) as [->|Hn].
  - destruct (split_on c r) as [|p ps] eqn:E; [now apply split_on_nonempty in E|].
    cbn [join app] in *. now rewrite IH.
  - destruct (split_on c r) as [|p ps] eqn:E; [now apply split_on_nonempty in E|].
    cbn [join] in *. destruct ps; cbn [app] in *; now rewrite <- IH.
Qed.

Lemma split_on_no_sep c t : Forall (fun p => ~ In c p) (split_on c t).
Proof.
  induction t as [|x r IH]; cbn [split_on]; [constructor; [cbn; tauto|constructor]|].
  destruct (N.eqb_spec x c) as [->|Hn].
  - constructor; [cbn; tauto|exact IH].
  - destruct (split_on c r) as [|p ps]; inv IH.
    + constructor; [cbn; intros [->|[]]; congruence|constructor].
    + constructor; [cbn; intros [->|Hi]; [congruence|tauto]|assumption].
Qed.

Lemma remove_char_clean c t : ~ In c t -> remove_char c t = t.
Proof.
  induction t as [|x t IH]; intros H; cbn [remove_char filter]; [reflexivity|].
  destruct (N.eqb_spec x c) as [->|Hn]; [exfalso; apply H; now left|]. cbn [negb].
  f_equal. apply IH. intros Hi; apply H; now right.
Qed.
Lemma remove_char_app c a b : remove_char c (a ++ b) = remove_char c a ++ remove_char c b.
Proof. unfold remove_char. apply filter_app. Qed.

Lemma trim_start_clean t : (forall x r, t = x :: r -> is_ws x = false) -> trim_start t = t.
Proof. destruct t as [|x r]; intros H; cbn [trim_start]; [reflexivity|]. now rewrite (H x r eq_refl). Qed.

Definition no_ws (t : text) : Prop := Forall (fun c => is_ws c = false) t.

Lemma trim_start_nows t : no_ws t -> trim_start t = t.
Proof. intros H. apply trim_start_clean. intros x r ->. now inv H. Qed.
Lemma trim_nows t : no_ws t -> trim t = t.
Proof.
  intros H. unfold trim, trim_end. rewrite (trim_start_nows t H).
  rewrite trim_start_nows; [apply rev_involutive|].
  unfold no_ws in *. rewrite Forall_forall in *. intros x Hx. apply H. now apply in_rev.
Qed.

Definition all_ws (t : text) : Prop := Forall (fun c => is_ws c = true) t.
Lemma trim_start_ws w t : all_ws w -> trim_start (w ++ t) = trim_start t.
Proof. induction 1 as [|x w Hx Hw IH]; cbn [app trim_start]; [reflexivity|]. now rewrite Hx. Qed.
Lemma all_ws_rev w : all_ws w -> all_ws (rev w).
Proof. unfold all_ws. rewrite !Forall_forall. intros H x Hx. apply H. now apply in_rev. Qed.
Lemma no_ws_rev w : no_ws w -> no_ws (rev w).
Proof. unfold no_ws. rewrite !Forall_forall. intros H x Hx. apply H. now apply in_rev. Qed.
(* trimming removes any white space around a text without white space *)
Lemma trim_pad w1 t w2 : all_ws w1 -> no_ws t -> t <> [] -> all_ws w2 -> trim (w1 ++ t ++ w2) = t.
Proof.
  intros H1 Ht Hne H2. unfold trim, trim_end.
  rewrite trim_start_ws by exact H1.
  rewrite trim_start_clean with (t := t ++ w2).
  2:{ intros x r E. destruct t as [|y t']; [congruence|]. inv E. now inv Ht. }
  rewrite rev_app_distr, trim_start_ws by now apply all_ws_rev.
  rewrite trim_start_nows by now apply no_ws_rev.
  apply rev_involutive.
Qed.

(* ---- decimal ---- *)
Lemma digits_val_app a b : digits_val (a ++ b) = digits_val a * 10 ^ N.of_nat (length b) + digits_val b.
Proof.
  unfold digits_val. rewrite fold_left_app. generalize (fold_left (fun a c => a * 10 + (c - 48)) a 0) as k.
  induction b as [|c b IH] using rev_ind; intros k; cbn [fold_left length].
  - cbn [N.of_nat]. rewrite N.pow_0_r. lia.
  - rewrite !fold_left_app, IH, app_length. cbn [fold_left length].
    replace (N.of_nat (length b + 1)) with (N.succ (N.of_nat (length b))) by lia.
    rewrite N.pow_succ_r'. lia.
Qed.

Lemma digits_val_snoc a c : digits_val (a ++ [c]) = digits_val a * 10 + (c - 48).
Proof. unfold digits_val. now rewrite fold_left_app. Qed.

Lemma dec_aux_val f n : n < 2 ^ N.of_nat f -> digits_val (dec_aux f n) = n.
Proof.
  revert n; induction f as [|f IH]; intros n H.
  - cbn [N.of_nat] in H. rewrite N.pow_0_r in H. cbn. lia.
  - cbn [dec_aux]. rewrite digits_val_snoc. rewrite Nat2N.inj_succ, N.pow_succ_r' in H.
    destruct (N.ltb_spec n 10).
    + replace (digits_val []) with 0 by reflexivity. lia.
    + rewrite IH; lia.
Qed.

Lemma log2_bound n : n < 2 ^ N.of_nat (S (N.to_nat (N.log2 n))).
Proof.
  rewrite Nat2N.inj_succ, N2Nat.id. destruct n as [|p]; [reflexivity|]. apply N.log2_spec. lia.
Qed.

Lemma dec_text_val n : digits_val (dec_text n) = n.
Proof. apply dec_aux_val, log2_bound. Qed.

Lemma dec_aux_digits f n : forallb is_digit (dec_aux f n) = true.
Proof.
  revert n; induction f as [|f IH]; intros n; cbn [dec_aux]; [reflexivity|].
  rewrite forallb_app, andb_true_iff. split.
  - destruct (n <? 10); [reflexivity|apply IH].
  - cbn [forallb]. unfold is_digit. lia.
Qed.
Lemma dec_text_digits n : forallb is_digit (dec_text n) = true.
Proof. apply dec_aux_digits. Qed.
Lemma dec_text_nonempty n : dec_text n <> [].
Proof.
  unfold dec_text. cbn [dec_aux]. intros H. apply app_eq_nil in H. destruct H; discriminate.
Qed.
Lemma dec_text_In n c : In c (dec_text n) -> 48 <= c <= 57.
Proof.
  intros H. pose proof (dec_text_digits n) as D. rewrite forallb_forall in D. apply D in H.
  unfold is_digit in H. lia.
Qed.
Lemma dec_text_inj m n : dec_text m = dec_text n -> m = n.
Proof. intros H. rewrite <- (dec_text_val m), <- (dec_text_val n). now rewrite H. Qed.

Lemma parse_uint_digits m t : t <> [] -> forallb is_digit t = true -> digits_val t < m -> parse_uint m t = Ok (digits_val t).
Proof.
  intros Hne Hd Hv. unfold parse_uint. destruct t as [|c r]; [congruence|].
  assert (Hc : c <> 43).
  { cbn [forallb] in Hd. apply andb_true_iff in Hd. destruct Hd as [Hd _]. unfold is_digit in Hd. lia. }
  assert (E : strip_plus (c :: r) = c :: r).
  { unfold strip_plus. destruct r; [reflexivity|]. destruct (N.eqb_spec c 43); [congruence|reflexivity]. }
  rewrite E. rewrite Hd. destruct (N.ltb_spec (digits_val (c :: r)) m); [reflexivity|lia].
Qed.

Lemma parse_dec_text m n : n < m -> parse_uint m (dec_text n) = Ok n.
Proof.
  intros H. rewrite parse_uint_digits; rewrite ?dec_text_val; auto using dec_text_nonempty, dec_text_digits.
Qed.

Lemma parse_uint_lt m t n : parse_uint m t = Ok n -> n < m.
Proof.
  unfold parse_uint. set (ds := strip_plus t).
  destruct ds as [|d ds']; [discriminate|].
  destruct (forallb is_digit (d :: ds')); [|discriminate].
  destruct (N.ltb_spec (digits_val (d :: ds')) m); [|discriminate].
  intros E; inv E; assumption.
Qed.

Lemma parse_uint_returns m t : returns (parse_uint m t).
Proof.
  unfold parse_uint. set (ds := strip_plus t).
  destruct ds as [|d ds']; cbn [returns]; auto.
  destruct (forallb is_digit (d :: ds')); cbn [returns]; auto.
  destruct (digits_val (d :: ds') <? m); cbn [returns]; auto.
Qed.

(* ---- hex ---- *)
Lemma hex_val_char n : n < 16 -> hex_val (hex_char n) = Some n.
Proof.
  intros H. unfold hex_char, hex_val. destruct (N.ltb_spec n 10).
  - replace ((48 <=? 48 + n) && (48 + n <=? 57)) with true by lia. f_equal. lia.
  - replace ((48 <=? 87 + n) && (87 + n <=? 57)) with false by lia.
    replace ((97 <=? 87 + n) && (87 + n <=? 102)) with true by lia. f_equal. lia.
Qed.

Lemma hex_decode_encode bs : hex_decode (hex_encode bs) = Some bs.
Proof.
  induction bs as [|b bs IH]; [reflexivity|].
  cbn [hex_encode flat_map app hex_decode]. pose proof (b2n_lt b).
  rewrite !hex_val_char by lia. unfold hex_encode in IH. rewrite IH.
  replace (16 * (b2n b / 16) + b2n b mod 16) with (b2n b) by lia. now rewrite n2b_b2n.
Qed.
Lemma hex_encode_length bs : length (hex_encode bs) = (2 * length bs)%nat.
Proof. induction bs as [|b bs IH]; [reflexivity|]. cbn [hex_encode flat_map app length]. unfold hex_encode in IH. lia. Qed.
Definition is_lower_hex (c : N) : bool := ((48 <=? c) && (c <=? 57)) || ((97 <=? c) && (c <=? 102)).
Lemma hex_encode_chars bs : Forall (fun c => is_lower_hex c = true) (hex_encode bs).
Proof.
  induction bs as [|b bs IH]; [constructor|]. cbn [hex_encode flat_map app]. pose proof (b2n_lt b).
  assert (forall n, n < 16 -> is_lower_hex (hex_char n) = true).
  { intros n Hn. unfold is_lower_hex, hex_char. destruct (N.ltb_spec n 10); lia. }
  repeat constructor; auto; apply H0; lia.
Qed.
Lemma hex_encode_app a b : hex_encode (a ++ b) = hex_encode a ++ hex_encode b.
Proof. unfold hex_encode. apply flat_map_app. Qed.
Lemma hex_encode_inj a b : hex_encode a = hex_encode b -> a = b.
Proof. intros H. pose proof (hex_decode_encode a) as Ha. rewrite H, hex_decode_encode in Ha. congruence. Qed.
Lemma hex_decode_length t bs : hex_decode t = Some bs -> length t = (2 * length bs)%nat.
Proof.
  revert bs. remember (length t) as n eqn:Hn. revert t Hn.
  induction n as [n IH] using lt_wf_ind. intros t Hn bs H.
  destruct t as [|a [|b r]]; cbn [hex_decode] in H; [inv H; reflexivity|discriminate|].
  destruct (hex_val a); [|discriminate]. destruct (hex_val b); [|discriminate].
  destruct (hex_decode r) as [bs'|] eqn:E; [|discriminate]. inv H. cbn [length].
  assert (length r = 2 * length bs')%nat by (eapply IH; [|reflexivity|exact E]; cbn [length]; lia). lia.
Qed.

(* ---- sorting ---- *)
Definition text_le (a b : text) : Prop := text_leb a b = true.
Lemma text_leb_total a b : text_leb a b = true \/ text_leb b a = true.
Proof.
  revert b; induction a as [|x a IH]; intros [|y b]; cbn [text_leb]; auto.
  destruct (N.ltb_spec x y), (N.ltb_spec y x); auto.
Qed.
Lemma text_leb_antisym a b : text_leb a b = true -> text_leb b a = true -> a = b.
Proof.
  revert b; induction a as [|x a IH]; intros [|y b]; cbn [text_leb]; auto; try discriminate.
  destruct (N.ltb_spec x y), (N.ltb_spec y x); try discriminate; try lia.
  intros H1 H2. f_equal; [lia|now apply IH].
Qed.
Lemma text_leb_trans a b c : text_leb a b = true -> text_leb b c = true -> text_leb a c = true.
Proof.
  revert b c; induction a as [|x a IH]; intros [|y b] [|z c]; cbn [text_leb]; auto; try discriminate.
  destruct (N.ltb_spec x y), (N.ltb_spec y x), (N.ltb_spec y z), (N.ltb_spec z y), (N.ltb_spec x z), (N.ltb_spec z x);
    auto; try discriminate; try lia.
  apply IH.
Qed.
Lemma text_leb_refl a : text_leb a a = true.
Proof. destruct (text_leb_total a a); assumption. Qed.

Lemma insert_text_perm x l : Permutation (x :: l) (insert_text x l).
Proof.
  induction l as [|y r IH]; cbn [insert_text]; [reflexivity|].
  destruct (text_leb x y); [reflexivity|]. rewrite perm_swap. now constructor.
Qed.
Lemma sort_texts_perm l : Permutation l (sort_texts l).
Proof.
  induction l as [|x l IH]; cbn [sort_texts fold_right]; [reflexivity|].
  rewrite <- insert_text_perm. now constructor.
Qed.
Lemma insert_text_sorted x l : StronglySorted text_le l -> StronglySorted text_le (insert_text x l).
Proof.
  induction 1 as [|y l Hs IH Hf]; cbn [insert_text]; [repeat constructor|].
  destruct (text_leb x y) eqn:E.
  - constructor; [now constructor|]. constructor; [exact E|].
    eapply Forall_impl; [|exact Hf]. intros z Hz. eapply text_leb_trans; eassumption.
  - constructor; [exact IH|]. rewrite Forall_forall in *. intros z Hz.
    apply (Permutation_in z (Permutation_sym (insert_text_perm x l))) in Hz.
    destruct Hz as [<-|Hz]; [|now apply Hf].
    destruct (text_leb_total x y) as [H|H]; [congruence|exact H].
Qed.
Lemma sort_texts_sorted l : StronglySorted text_le (sort_texts l).
Proof. induction l as [|x l IH]; cbn [sort_texts fold_right]; [constructor|]. now apply insert_text_sorted. Qed.
Lemma sorted_perm_eq l1 l2 :
  StronglySorted text_le l1 -> StronglySorted text_le l2 -> Permutation l1 l2 -> l1 = l2.
Proof.
  intros H1. revert l2. induction H1 as [|x l1 Hs IH Hf]; intros l2 H2 HP.
  - now apply Permutation_nil in HP.
  - destruct H2 as [|y l2 Hs2 Hf2]; [now apply Permutation_sym, Permutation_nil in HP|].
    assert (x = y).
    { apply text_leb_antisym.
      - destruct (Permutation_in y (Permutation_sym HP)) as [->|Hi]; [now left|apply text_leb_refl|].
        rewrite Forall_forall in Hf. now apply Hf.
      - destruct (Permutation_in x HP) as [->|Hi]; [now left|apply text_leb_refl|].
        rewrite Forall_forall in Hf2. now apply Hf2. }
    subst y. f_equal. apply IH; [exact Hs2|]. eapply Permutation_cons_inv; exact HP.
Qed.
Lemma sort_texts_ext l1 l2 : Permutation l1 l2 -> sort_texts l1 = sort_texts l2.
Proof.
  intros H. apply sorted_perm_eq; auto using sort_texts_sorted.
  now rewrite <- !sort_texts_perm.
Qed.
Lemma sort_texts_id l : StronglySorted text_le l -> sort_texts l = l.
Proof.
  intros H. apply sorted_perm_eq; auto using sort_texts_sorted. symmetry. apply sort_texts_perm.
Qed.
