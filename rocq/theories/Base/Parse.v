(* Model of std::io::Cursor<&[u8]> and the byteorder reading functions, and the reasoning rules for parsers.
   A parser gets the (constant) buffer and the position, and returns a value and the new position.  When a
   reading function fails the library always propagates the error with `?` and drops the cursor, so no position is
   kept for errors. *)
From Verif Require Import Base.Tac Base.Bytes Base.Text Base.Res.
Local Open Scope N_scope.

Definition parser (A : Type) := list byte -> nat -> res (A * nat).

Definition ret {A} (a : A) : parser A := fun _ pos => Ok (a, pos).
Definition fail {A} (e : error) : parser A := fun _ _ => Err e.
Definition pbind {A B} (p : parser A) (f : A -> parser B) : parser B :=
  fun buf pos => match p buf pos with
                 | Ok (a, pos') => f a buf pos'
                 | Err e => Err e
                 | Panic => Panic
                 | Diverge => Diverge
                 end.
Definition lift {A} (r : res A) : parser A :=
  fun _ pos => match r with Ok a => Ok (a, pos) | Err e => Err e | Panic => Panic | Diverge => Diverge end.
Notation "x <- p ;; q" := (pbind p (fun x => q))
  (at level 100, p at next level, right associativity).
Notation "' pat <- p ;; q" := (pbind p (fun x => match x with pat => q end))
  (at level 100, pat pattern, p at next level, right associativity).
Notation "p ;;; q" := (pbind p (fun _ => q)) (at level 100, right associativity).

(* cursor.position() / cursor.get_ref().len() *)
Definition get_pos : parser nat := fun _ pos => Ok (pos, pos).
Definition get_len : parser nat := fun buf pos => Ok (length buf, pos).

(* Read::read_exact into a freshly allocated vec![0; n].  A cursor placed past the end has nothing to read. *)
Definition read_bytes (n : N) : parser (list byte) :=
  fun buf pos =>
    let? _ := alloc n in
    if N.of_nat (length buf - pos) <? n then Err (EIo UnexpectedEof)
    else Ok (firstn (N.to_nat n) (skipn pos buf), (pos + N.to_nat n)%nat).

(* byteorder read_u8/u16/u24/u32/u48/u64::<LittleEndian>() : k bytes, k a literal *)
Definition read_le (k : nat) : parser N := bs <- read_bytes (N.of_nat k) ;; ret (le_dec bs).
Definition read_be (k : nat) : parser N := bs <- read_bytes (N.of_nat k) ;; ret (be_dec bs).
Definition read_u8 : parser N := read_le 1.
Definition read_u16 : parser N := read_le 2.
Definition read_u24 : parser N := read_le 3.
Definition read_u32 : parser N := read_le 4.
Definition read_u48 : parser N := read_le 6.
Definition read_u64 : parser N := read_le 8.

(* byteorder 1.4 read_uint::<E>(nbytes): Read::read_uint reads into buf[..nbytes] of an [u8; 8] and then calls
   E::read_uint, which asserts 1 <= nbytes <= 8 (nbytes > 8 already fails on slicing): panics otherwise. *)
Definition read_uint_le (n : N) : parser N :=
  if (n =? 0) || (8 <? n) then fun _ _ => Panic
  else bs <- read_bytes n ;; ret (le_dec bs).
Definition read_uint_be (n : N) : parser N :=
  if (n =? 0) || (8 <? n) then fun _ _ => Panic
  else bs <- read_bytes n ;; ret (be_dec bs).

(* two's complement reading of a k-byte unsigned value *)
Definition to_signed (bits : N) (n : N) : Z :=
  if n <? 2 ^ (bits - 1) then Z.of_N n else (Z.of_N n - Z.of_N (2 ^ bits))%Z.

(* read_to_end / read_to_string start from the current position *)
Definition read_rest : parser (list byte) :=
  fun buf pos => Ok (skipn pos buf, Nat.max pos (length buf)).

(* BufRead::read_until(delim): everything up to and including the delimiter, or up to the end *)
Fixpoint until (d : byte) (bs : list byte) : list byte :=
  match bs with
  | [] => []
  | b :: r => if byte_eqb b d then [b] else b :: until d r
  end.
Definition read_until (d : byte) : parser (list byte) :=
  fun buf pos => let bs := until d (skipn pos buf) in Ok (bs, (pos + length bs)%nat).

(* Seek::seek(SeekFrom::Current(d)) for Cursor: error on a negative result *)
Definition seek_cur (d : Z) : parser unit :=
  fun _ pos => if (Z.of_nat pos + d <? 0)%Z then Err (EIo InvalidInput)
               else Ok (tt, Z.to_nat (Z.of_nat pos + d)).

(* String::from_utf8(vec)? *)
Definition from_utf8 (bs : list byte) : res text :=
  match utf8_decode bs with Some t => Ok t | None => Err EFromUtf8 end.

(* run k times / while-loops *)
Fixpoint prepeat {A} (k : nat) (p : parser A) : parser (list A) :=
  match k with
  | O => ret []
  | S k' => x <- p ;; xs <- prepeat k' p ;; ret (x :: xs)
  end.

(* while cursor.position() < cursor.get_ref().len() { body; push }.  [fuel] bounds the number of rounds; a body
   that always advances ends within S (length buf) rounds, so running out of fuel means the loop never ends
   (shown in the proofs). *)
Fixpoint pwhile_aux {A} (fuel : nat) (p : parser A) : parser (list A) :=
  fun buf pos =>
    if (pos <? length buf)%nat then
      match fuel with
      | O => Diverge
      | S f => (x <- p ;; xs <- pwhile_aux f p ;; ret (x :: xs)) buf pos
      end
    else Ok ([], pos).
Definition pwhile {A} (p : parser A) : parser (list A) :=
  fun buf pos => pwhile_aux (S (length buf)) p buf pos.

(* ================= reasoning rules ================= *)

(* p, started in front of bs, wherever bs lies in the buffer, returns v and stops right after bs *)
Definition runs {A} (p : parser A) (bs : list byte) (v : A) : Prop :=
  forall pre post, p (pre ++ bs ++ post) (length pre) = Ok (v, (length pre + length bs)%nat).

(* the same for a parser that also looks at the end of the buffer *)
Definition runs_end {A} (p : parser A) (bs : list byte) (v : A) : Prop :=
  forall pre, p (pre ++ bs) (length pre) = Ok (v, (length pre + length bs)%nat).

Lemma runs_runs_end {A} (p : parser A) bs v : runs p bs v -> runs_end p bs v.
Proof. intros H pre. specialize (H pre []). now rewrite app_nil_r in H. Qed.

Lemma runs_ret {A} (v : A) : runs (ret v) [] v.
Proof. intros pre post. unfold ret. cbn [length]. now rewrite Nat.add_0_r. Qed.

Lemma runs_lift {A} (r : res A) v : r = Ok v -> runs (lift r) [] v.
Proof. intros -> pre post. unfold lift. cbn [length]. now rewrite Nat.add_0_r. Qed.

Lemma runs_bind {A B} (p : parser A) (f : A -> parser B) b1 b2 v w :
  runs p b1 v -> runs (f v) b2 w -> runs (pbind p f) (b1 ++ b2) w.
Proof.
  intros Hp Hf pre post. unfold pbind. rewrite <- app_assoc, Hp.
  specialize (Hf (pre ++ b1) post). rewrite <- app_assoc, app_length in Hf.
  rewrite Hf, app_length. f_equal. f_equal. lia.
Qed.

Lemma runs_bind_nil {A B} (p : parser A) (f : A -> parser B) b v w :
  runs p [] v -> runs (f v) b w -> runs (pbind p f) b w.
Proof. intros Hp Hf. change b with ([] ++ b). eapply runs_bind; eassumption. Qed.

Lemma runs_bind_last {A B} (p : parser A) (f : A -> parser B) b v w :
  runs p b v -> runs (f v) [] w -> runs (pbind p f) b w.
Proof. intros Hp Hf. rewrite <- (app_nil_r b). eapply runs_bind; eassumption. Qed.

Lemma runs_end_bind {A B} (p : parser A) (f : A -> parser B) b1 b2 v w :
  runs p b1 v -> runs_end (f v) b2 w -> runs_end (pbind p f) (b1 ++ b2) w.
Proof.
  intros Hp Hf pre. unfold pbind. rewrite Hp.
  specialize (Hf (pre ++ b1)). rewrite <- app_assoc, app_length in Hf.
  rewrite Hf, app_length. f_equal. f_equal. lia.
Qed.

Lemma runs_end_bind_last {A B} (p : parser A) (f : A -> parser B) b v w :
  runs_end p b v -> runs_end (f v) [] w -> runs_end (pbind p f) b w.
Proof.
  intros Hp Hf pre. unfold pbind. rewrite Hp.
  specialize (Hf (pre ++ b)). rewrite app_nil_r, app_length in Hf. rewrite Hf.
  f_equal. f_equal. cbn [length]. lia.
Qed.

Lemma runs_eq {A} (p q : parser A) bs v : (forall buf pos, p buf pos = q buf pos) -> runs p bs v -> runs q bs v.
Proof. intros E H pre post. rewrite <- E. apply H. Qed.

Lemma runs_cast {A} (p : parser A) bs bs' v v' : runs p bs v -> bs = bs' -> v = v' -> runs p bs' v'.
Proof. intros H -> ->. exact H. Qed.

Lemma alloc_ok n : n <= isize_max -> alloc n = Ok tt.
Proof. intros H. unfold alloc. destruct (N.ltb_spec isize_max n); [lia|reflexivity]. Qed.

Lemma runs_read_bytes bs n : N.of_nat (length bs) = n -> n <= isize_max -> runs (read_bytes n) bs bs.
Proof.
  intros <- Hm pre post. unfold read_bytes. rewrite alloc_ok by exact Hm. cbn [rbind].
  rewrite !app_length. destruct (N.ltb_spec (N.of_nat (length pre + (length bs + length post) - length pre)) (N.of_nat (length bs))); [lia|].
  rewrite Nat2N.id, skipn_app_exact, firstn_app_exact. reflexivity.
Qed.

Lemma runs_read_le k n : n < 256 ^ N.of_nat k -> N.of_nat k <= isize_max -> runs (read_le k) (le_enc k n) n.
Proof.
  intros H Hk. unfold read_le. eapply runs_bind_last.
  - apply runs_read_bytes; [now rewrite le_enc_length|exact Hk].
  - rewrite le_dec_enc_small by exact H. apply runs_ret.
Qed.
Lemma runs_read_be k n : n < 256 ^ N.of_nat k -> N.of_nat k <= isize_max -> runs (read_be k) (be_enc k n) n.
Proof.
  intros H Hk. unfold read_be. eapply runs_bind_last.
  - apply runs_read_bytes; [now rewrite be_enc_length|exact Hk].
  - rewrite be_dec_enc_small by exact H. apply runs_ret.
Qed.
Lemma runs_read_le_bytes bs : N.of_nat (length bs) <= isize_max -> runs (read_le (length bs)) bs (le_dec bs).
Proof.
  intros Hk. unfold read_le. eapply runs_bind_last; [apply runs_read_bytes; [reflexivity|exact Hk]|apply runs_ret].
Qed.
Lemma runs_u8 n : n < 256 -> runs read_u8 (le_enc 1 n) n.
Proof. intros H. apply runs_read_le; [exact H|unfold isize_max; lia]. Qed.
Lemma runs_u8_byte b : runs read_u8 [b] (b2n b).
Proof.
  eapply runs_cast; [apply (runs_u8 (b2n b)), b2n_lt| |reflexivity].
  cbn [le_enc]. now rewrite n2b_b2n.
Qed.
Lemma runs_u16 n : n < 65536 -> runs read_u16 (le_enc 2 n) n.
Proof. intros H. apply runs_read_le; [exact H|unfold isize_max; lia]. Qed.
Lemma runs_u24 n : n < 16777216 -> runs read_u24 (le_enc 3 n) n.
Proof. intros H. apply runs_read_le; [exact H|unfold isize_max; lia]. Qed.
Lemma runs_u32 n : n < 4294967296 -> runs read_u32 (le_enc 4 n) n.
Proof. intros H. apply runs_read_le; [exact H|unfold isize_max; lia]. Qed.
Lemma runs_u48 n : n < 281474976710656 -> runs read_u48 (le_enc 6 n) n.
Proof. intros H. apply runs_read_le; [exact H|unfold isize_max; lia]. Qed.
Lemma runs_u64 n : n < 18446744073709551616 -> runs read_u64 (le_enc 8 n) n.
Proof. intros H. apply runs_read_le; [exact H|unfold isize_max; lia]. Qed.

Lemma runs_uint_le k n : (1 <= k <= 8)%nat -> n < 256 ^ N.of_nat k -> runs (read_uint_le (N.of_nat k)) (le_enc k n) n.
Proof.
  intros Hk H. unfold read_uint_le. destruct (N.eqb_spec (N.of_nat k) 0); [lia|]. destruct (N.ltb_spec 8 (N.of_nat k)); [lia|]. cbn [orb].
  apply (runs_read_le k n H). unfold isize_max. lia.
Qed.
Lemma runs_uint_be k n : (1 <= k <= 8)%nat -> n < 256 ^ N.of_nat k -> runs (read_uint_be (N.of_nat k)) (be_enc k n) n.
Proof.
  intros Hk H. unfold read_uint_be. destruct (N.eqb_spec (N.of_nat k) 0); [lia|]. destruct (N.ltb_spec 8 (N.of_nat k)); [lia|]. cbn [orb].
  apply (runs_read_be k n H). unfold isize_max. lia.
Qed.

Lemma until_found d a r : ~ In d a -> until d (a ++ d :: r) = a ++ [d].
Proof.
  induction a as [|x a IH]; intros H; cbn [app until].
  - now rewrite byte_eqb_refl.
  - destruct (byte_eqb_spec x d) as [->|Hn]; [exfalso; apply H; now left|].
    f_equal. apply IH. intros Hi; apply H; now right.
Qed.
Lemma until_missing d a : ~ In d a -> until d a = a.
Proof.
  induction a as [|x a IH]; intros H; cbn [until]; [reflexivity|].
  destruct (byte_eqb_spec x d) as [->|Hn]; [exfalso; apply H; now left|].
  f_equal. apply IH. intros Hi; apply H; now right.
Qed.

Lemma runs_read_until d a : ~ In d a -> runs (read_until d) (a ++ [d]) (a ++ [d]).
Proof.
  intros H pre post. unfold read_until. rewrite skipn_app_exact, <- app_assoc. cbn [app].
  rewrite until_found by exact H. reflexivity.
Qed.

Lemma runs_end_rest bs : runs_end read_rest bs bs.
Proof.
  intros pre. unfold read_rest. rewrite skipn_app_exact, app_length. f_equal. f_equal. lia.
Qed.

Lemma runs_prepeat {A} (p : parser A) (enc : A -> list byte) (l : list A) :
  Forall (fun x => runs p (enc x) x) l -> runs (prepeat (length l) p) (flat_map enc l) l.
Proof.
  induction 1 as [|x l Hx Hl IH]; cbn [length prepeat flat_map]; [apply runs_ret|].
  eapply runs_bind; [exact Hx|]. eapply runs_bind_last; [exact IH|]. apply runs_ret.
Qed.

(* a while-loop reads a sequence of non-empty encodings up to the end of the buffer *)
Lemma pwhile_aux_runs {A B} (p : parser A) (enc : B -> list byte) (dec : B -> A) (l : list B) :
  Forall (fun x => enc x <> [] /\ runs p (enc x) (dec x)) l ->
  forall fuel, (length l <= fuel)%nat -> runs_end (pwhile_aux fuel p) (flat_map enc l) (map dec l).
Proof.
  induction 1 as [|x l [Hne Hx] Hl IH]; intros fuel Hf pre; cbn [flat_map map].
  - destruct fuel; cbn [pwhile_aux]; rewrite app_nil_r, Nat.ltb_irrefl; cbn [length]; now rewrite Nat.add_0_r.
  - destruct fuel as [|fuel]; [cbn [length] in Hf; lia|]. cbn [length] in Hf.
    cbn [pwhile_aux]. rewrite !app_length.
    assert (0 < length (enc x))%nat by (destruct (enc x); [congruence|cbn [length]; lia]).
    destruct (Nat.ltb_spec (length pre) (length pre + (length (enc x) + length (flat_map enc l)))); [|lia].
    unfold pbind. rewrite Hx.
    specialize (IH fuel ltac:(lia) (pre ++ enc x)). rewrite <- app_assoc, app_length in IH.
    rewrite IH. unfold ret. f_equal. f_equal. lia.
Qed.

Lemma flat_map_length_ge {B} (enc : B -> list byte) l :
  Forall (fun x => enc x <> []) l -> (length l <= length (flat_map enc l))%nat.
Proof.
  induction 1 as [|x l Hx Hl IH]; cbn [flat_map length]; [lia|].
  rewrite app_length. destruct (enc x); [congruence|]. cbn [length]. lia.
Qed.

Lemma pwhile_runs {A B} (p : parser A) (enc : B -> list byte) (dec : B -> A) (l : list B) :
  Forall (fun x => enc x <> [] /\ runs p (enc x) (dec x)) l ->
  runs_end (pwhile p) (flat_map enc l) (map dec l).
Proof.
  intros H pre. unfold pwhile. apply (pwhile_aux_runs p enc dec l H).
  assert (length l <= length (flat_map enc l))%nat.
  { apply flat_map_length_ge. eapply Forall_impl; [|exact H]. cbn. tauto. }
  rewrite app_length. lia.
Qed.

(* ---- safety: a parser that never panics nor loops ---- *)
Definition psafe {A} (p : parser A) : Prop := forall buf pos, returns (p buf pos).
(* ---- a parser whose position never moves backwards, and which moves by at least k ---- *)
Definition advances {A} (k : nat) (p : parser A) : Prop :=
  forall buf pos a pos', p buf pos = Ok (a, pos') -> (pos + k <= pos')%nat.

Lemma psafe_ret {A} (a : A) : psafe (ret a).
Proof. intros buf pos. exact I. Qed.
Lemma psafe_fail {A} e : psafe (@fail A e).
Proof. intros buf pos. exact I. Qed.
Lemma psafe_bind {A B} (p : parser A) (f : A -> parser B) :
  psafe p -> (forall a, psafe (f a)) -> psafe (pbind p f).
Proof.
  intros Hp Hf buf pos. unfold pbind. specialize (Hp buf pos).
  destruct (p buf pos) as [[a pos']|e| |]; cbn in *; auto. apply Hf.
Qed.
Lemma psafe_lift {A} (r : res A) : returns r -> psafe (lift r).
Proof. intros H buf pos. unfold lift. destruct r; cbn in *; auto. Qed.
Lemma psafe_read_bytes n : n <= isize_max -> psafe (read_bytes n).
Proof.
  intros H buf pos. unfold read_bytes. rewrite alloc_ok by exact H. cbn [rbind].
  destruct (_ <? _); exact I.
Qed.
Lemma psafe_read_le k : N.of_nat k <= isize_max -> psafe (read_le k).
Proof. intros H. apply psafe_bind; [now apply psafe_read_bytes|]. intros a. apply psafe_ret. Qed.
Lemma psafe_get_pos : psafe get_pos. Proof. intros buf pos. exact I. Qed.
Lemma psafe_get_len : psafe get_len. Proof. intros buf pos. exact I. Qed.
Lemma psafe_read_rest : psafe read_rest. Proof. intros buf pos. exact I. Qed.
Lemma psafe_read_until d : psafe (read_until d). Proof. intros buf pos. exact I. Qed.
Lemma psafe_seek d : psafe (seek_cur d).
Proof. intros buf pos. unfold seek_cur. destruct (_ <? _)%Z; exact I. Qed.
Lemma from_utf8_returns bs : returns (from_utf8 bs).
Proof. unfold from_utf8. destruct (utf8_decode bs); exact I. Qed.
Lemma psafe_prepeat {A} k (p : parser A) : psafe p -> psafe (prepeat k p).
Proof.
  intros H. induction k as [|k IH]; cbn [prepeat]; [apply psafe_ret|].
  apply psafe_bind; [exact H|]. intros a. apply psafe_bind; [exact IH|]. intros b. apply psafe_ret.
Qed.

Lemma advances_ret {A} (a : A) : advances 0 (ret a).
Proof. intros buf pos x pos' H. inv H. lia. Qed.
Lemma advances_fail {A} k e : advances k (@fail A e).
Proof. intros buf pos x pos' H. discriminate. Qed.
Lemma advances_bind {A B} k1 k2 (p : parser A) (f : A -> parser B) :
  advances k1 p -> (forall a, advances k2 (f a)) -> advances (k1 + k2) (pbind p f).
Proof.
  intros Hp Hf buf pos x pos' H. unfold pbind in H.
  destruct (p buf pos) as [[a pos1]|e| |] eqn:E; try discriminate.
  apply Hp in E. apply Hf in H. lia.
Qed.
Lemma advances_lift {A} (r : res A) : advances 0 (lift r).
Proof. intros buf pos x pos' H. unfold lift in H. destruct r; inv H. lia. Qed.
Lemma advances_weaken {A} k k' (p : parser A) : (k' <= k)%nat -> advances k p -> advances k' p.
Proof. intros Hk H buf pos x pos' E. apply H in E. lia. Qed.
Lemma advances_read_bytes n : advances (N.to_nat n) (read_bytes n).
Proof.
  intros buf pos x pos' H. unfold read_bytes in H. destruct (alloc n); try discriminate. cbn [rbind] in H.
  destruct (_ <? _); inv H. lia.
Qed.
Lemma advances_read_le k : advances k (read_le k).
Proof.
  replace k with (k + 0)%nat at 1 by lia. apply advances_bind; [|intros; apply advances_ret].
  eapply advances_weaken; [|apply advances_read_bytes]. lia.
Qed.

Lemma pwhile_aux_safe {A} (p : parser A) : psafe p -> advances 1 p ->
  forall fuel buf pos, (length buf <= pos + fuel)%nat -> returns (pwhile_aux fuel p buf pos).
Proof.
  intros Hs Ha. induction fuel as [|f IH]; intros buf pos H; cbn [pwhile_aux];
    destruct (Nat.ltb_spec pos (length buf)); try exact I; [lia|].
  unfold pbind. specialize (Hs buf pos). destruct (p buf pos) as [[a pos1]|e| |] eqn:E; cbn in *; auto.
  apply Ha in E. specialize (IH buf pos1 ltac:(lia)).
  destruct (pwhile_aux f p buf pos1) as [[xs pos2]|e| |]; cbn in *; auto.
Qed.
(* a loop whose body always advances terminates *)
Lemma pwhile_safe {A} (p : parser A) : psafe p -> advances 1 p -> psafe (pwhile p).
Proof. intros Hs Ha buf pos. apply pwhile_aux_safe; auto. lia. Qed.
