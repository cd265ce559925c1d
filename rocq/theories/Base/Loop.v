(* `for _ in 0..n { body; push }` with a 64-bit bound read from the input. *)
From Verif Require Import Base.Tac Base.Bytes Base.Text Base.Res Base.Parse.
Local Open Scope N_scope.

(* [fuel] only makes the definition computable for huge n: with a body that always advances, S (length buf) rounds
   are enough to reach the end of the buffer, where every such body fails (see [ploop_prepeat]). *)
Fixpoint ploop_aux {A} (fuel : nat) (n : N) (p : parser A) : parser (list A) :=
  if n =? 0 then ret []
  else match fuel with
       | O => fun _ _ => Diverge
       | S f => x <- p ;; xs <- ploop_aux f (n - 1) p ;; ret (x :: xs)
       end.
Definition ploop {A} (n : N) (p : parser A) : parser (list A) :=
  fun buf pos => ploop_aux (S (length buf)) n p buf pos.

(* a parser that never stops beyond the end of the buffer it was started in *)
Definition bounded {A} (p : parser A) : Prop :=
  forall buf pos a pos', p buf pos = Ok (a, pos') -> (pos' <= length buf)%nat.

Lemma ploop_aux_prepeat {A} (p : parser A) : advances 1 p -> bounded p ->
  forall fuel n buf pos, (length buf < pos + fuel)%nat -> (0 < fuel)%nat ->
  ploop_aux fuel n p buf pos = prepeat (N.to_nat n) p buf pos.
Proof.
  intros Ha Hb. induction fuel as [|f IH]; intros n buf pos H Hf; [lia|]. cbn [ploop_aux].
  destruct (N.eqb_spec n 0) as [->|Hn]; [reflexivity|].
  replace (N.to_nat n) with (S (N.to_nat (n - 1))) by lia. cbn [prepeat]. unfold pbind.
  destruct (p buf pos) as [[a pos']|e| |] eqn:E; try reflexivity.
  pose proof (Ha _ _ _ _ E) as L1. pose proof (Hb _ _ _ _ E) as L2.
  destruct f as [|f]; [lia|]. rewrite IH by lia. reflexivity.
Qed.
Lemma ploop_prepeat {A} (p : parser A) : advances 1 p -> bounded p ->
  forall n buf pos, ploop n p buf pos = prepeat (N.to_nat n) p buf pos.
Proof. intros Ha Hb n buf pos. unfold ploop. apply ploop_aux_prepeat; auto; lia. Qed.

Lemma runs_ploop {A} (p : parser A) (enc : A -> list byte) (l : list A) n :
  N.of_nat (length l) = n -> Forall (fun x => enc x <> [] /\ runs p (enc x) x) l -> runs (ploop n p) (flat_map enc l) l.
Proof.
  intros <- H pre post. unfold ploop.
  assert (L : (length l <= length (flat_map enc l))%nat).
  { apply flat_map_length_ge. eapply Forall_impl; [|exact H]. cbn. tauto. }
  assert (L2 : (length l <= length (pre ++ flat_map enc l ++ post))%nat) by (rewrite !app_length; lia).
  revert L2. generalize (length (pre ++ flat_map enc l ++ post)) at 1 2. intros fuel L2. clear L.
  assert (L3 : (length l <= S fuel)%nat) by lia. clear L2. revert L3. generalize (S fuel). clear fuel. intros fuel. revert fuel pre.
  induction H as [|x l [Hne Hx] Hl IH]; intros fuel pre Hf; cbn [length flat_map].
  - destruct fuel; cbn; now rewrite Nat.add_0_r.
  - cbn [length] in Hf. destruct fuel as [|fuel]; [lia|]. cbn [ploop_aux].
    destruct (N.eqb_spec (N.of_nat (S (length l))) 0); [lia|]. unfold pbind. rewrite <- app_assoc, Hx.
    replace (N.of_nat (S (length l)) - 1) with (N.of_nat (length l)) by lia.
    specialize (IH fuel (pre ++ enc x) ltac:(lia)). rewrite <- app_assoc, app_length in IH.
    rewrite IH. unfold ret. rewrite app_length. f_equal. f_equal. lia.
Qed.

Lemma ploop_aux_safe {A} (p : parser A) : psafe p -> advances 1 p -> bounded p ->
  forall fuel n buf pos, (length buf < pos + fuel)%nat -> (0 < fuel)%nat -> returns (ploop_aux fuel n p buf pos).
Proof.
  intros Hs Ha Hb fuel n buf pos H1 H2. rewrite ploop_aux_prepeat by auto. now apply psafe_prepeat.
Qed.
Lemma psafe_ploop {A} n (p : parser A) : psafe p -> advances 1 p -> bounded p -> psafe (ploop n p).
Proof. intros Hs Ha Hb buf pos. apply ploop_aux_safe; auto; lia. Qed.

Lemma advances_prepeat {A} k (p : parser A) : advances 0 p -> advances 0 (prepeat k p).
Proof.
  intros H. induction k as [|k IH]; cbn [prepeat]; [apply advances_ret|].
  apply (advances_bind 0 0); [exact H|]. intros a. apply (advances_bind 0 0); [exact IH|]. intros b. apply advances_ret.
Qed.
Lemma advances_ploop {A} n (p : parser A) : advances 0 p -> advances 0 (ploop n p).
Proof.
  intros H buf pos a pos' E. unfold ploop in E. revert E. generalize (S (length buf)) as fuel. intros fuel.
  revert n pos a pos'. induction fuel as [|f IH]; intros n pos a pos'; cbn [ploop_aux]; destruct (n =? 0).
  - intros E. inv E. lia.
  - discriminate.
  - intros E. inv E. lia.
  - unfold pbind. destruct (p buf pos) as [[x p1]|e| |] eqn:E1; try discriminate.
    destruct (ploop_aux f (n - 1) p buf p1) as [[xs p2]|e| |] eqn:E2; try discriminate.
    intros E. inv E. apply H in E1. apply IH in E2. lia.
Qed.

(* ---- bounded ---- *)
Lemma bounded_read_bytes n : 0 < n -> bounded (read_bytes n).
Proof.
  intros Hn buf pos a pos' H. unfold read_bytes in H. destruct (alloc n); try discriminate. cbn [rbind] in H.
  destruct (N.ltb_spec (N.of_nat (length buf - pos)) n); inv H. lia.
Qed.
(* positions at most the end stay at most the end *)
Definition keeps {A} (p : parser A) : Prop :=
  forall buf pos a pos', (pos <= length buf)%nat -> p buf pos = Ok (a, pos') -> (pos' <= length buf)%nat.
Lemma bounded_keeps {A} (p : parser A) : bounded p -> keeps p.
Proof. intros H buf pos a pos' _ E. now apply H in E. Qed.
Lemma keeps_ret {A} (a : A) : keeps (ret a).
Proof. intros buf pos x pos' H E. inv E. exact H. Qed.
Lemma keeps_fail {A} e : keeps (@fail A e).
Proof. intros buf pos x pos' H E. discriminate. Qed.
Lemma keeps_lift {A} (r : res A) : keeps (lift r).
Proof. intros buf pos x pos' H E. unfold lift in E. destruct r; inv E. exact H. Qed.
Lemma keeps_bind {A B} (p : parser A) (f : A -> parser B) : keeps p -> (forall a, keeps (f a)) -> keeps (pbind p f).
Proof.
  intros Hp Hf buf pos x pos' H E. unfold pbind in E.
  destruct (p buf pos) as [[a p1]|e| |] eqn:E1; try discriminate. apply Hp in E1; [|exact H]. now apply Hf in E.
Qed.
Lemma bounded_bind {A B} (p : parser A) (f : A -> parser B) : bounded p -> (forall a, keeps (f a)) -> bounded (pbind p f).
Proof.
  intros Hp Hf buf pos x pos' E. unfold pbind in E.
  destruct (p buf pos) as [[a p1]|e| |] eqn:E1; try discriminate. apply Hp in E1. now apply Hf in E.
Qed.
Lemma keeps_read_bytes n : keeps (read_bytes n).
Proof.
  intros buf pos a pos' Hp H. unfold read_bytes in H. destruct (alloc n); try discriminate. cbn [rbind] in H.
  destruct (N.ltb_spec (N.of_nat (length buf - pos)) n); inv H. lia.
Qed.
Lemma keeps_read_le k : keeps (read_le k).
Proof. apply keeps_bind; [apply keeps_read_bytes|]. intros. apply keeps_ret. Qed.
Lemma keeps_read_be k : keeps (read_be k).
Proof. apply keeps_bind; [apply keeps_read_bytes|]. intros. apply keeps_ret. Qed.
Lemma bounded_read_le k : (0 < k)%nat -> bounded (read_le k).
Proof. intros H. apply bounded_bind; [apply bounded_read_bytes; lia|]. intros. apply keeps_ret. Qed.
Lemma keeps_ploop {A} n (p : parser A) : keeps p -> keeps (ploop n p).
Proof.
  intros H buf pos a pos' Hp E. unfold ploop in E. revert E. generalize (S (length buf)) as fuel. intros fuel.
  revert n pos a pos' Hp. induction fuel as [|f IH]; intros n pos a pos' Hp; cbn [ploop_aux]; destruct (n =? 0).
  - intros E. inv E. lia.
  - discriminate.
  - intros E. inv E. lia.
  - unfold pbind. destruct (p buf pos) as [[x p1]|e| |] eqn:E1; try discriminate.
    destruct (ploop_aux f (n - 1) p buf p1) as [[xs p2]|e| |] eqn:E2; try discriminate.
    intros E. inv E. apply H in E1; [|exact Hp]. now apply IH in E2.
Qed.
Lemma runs_ploop_map {A B} (p : parser A) (enc : B -> list byte) (dec : B -> A) (l : list B) n :
  N.of_nat (length l) = n -> Forall (fun x => enc x <> [] /\ runs p (enc x) (dec x)) l ->
  runs (ploop n p) (flat_map enc l) (map dec l).
Proof.
  intros <- H pre post. unfold ploop.
  assert (L : (length l <= length (flat_map enc l))%nat).
  { apply flat_map_length_ge. eapply Forall_impl; [|exact H]. cbn. tauto. }
  assert (L3 : (length l <= S (length (pre ++ flat_map enc l ++ post)))%nat) by (rewrite !app_length; lia).
  revert L3. generalize (S (length (pre ++ flat_map enc l ++ post))). intros fuel. clear L. revert fuel pre.
  induction H as [|x l [Hne Hx] Hl IH]; intros fuel pre Hf; cbn [length flat_map map].
  - destruct fuel; cbn; now rewrite Nat.add_0_r.
  - cbn [length] in Hf. destruct fuel as [|fuel]; [lia|]. cbn [ploop_aux].
    destruct (N.eqb_spec (N.of_nat (S (length l))) 0); [lia|]. unfold pbind. rewrite <- app_assoc, Hx.
    replace (N.of_nat (S (length l)) - 1) with (N.of_nat (length l)) by lia.
    specialize (IH fuel (pre ++ enc x) ltac:(lia)). rewrite <- app_assoc, app_length in IH.
    rewrite IH. unfold ret. rewrite app_length. f_equal. f_equal. lia.
Qed.
