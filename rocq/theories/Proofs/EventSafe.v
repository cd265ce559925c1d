(* Service and GTID events: no payload makes their decoders panic or loop. *)
From Verif Require Import Base.Tac Base.Bytes Base.Text Base.Res Base.Str Base.Parse Base.Loop Model.Codec Model.Gtid
  Model.GtidMaria Model.Events Spec.EventSpec Proofs.CodecProofs.
Local Open Scope N_scope.

(* values read have the size they were read with *)
Definition pvals {A} (P : A -> Prop) (p : parser A) : Prop := forall buf pos a pos', p buf pos = Ok (a, pos') -> P a.
Lemma psafe_bind_vals {A B} (P : A -> Prop) (p : parser A) (f : A -> parser B) :
  psafe p -> pvals P p -> (forall a, P a -> psafe (f a)) -> psafe (pbind p f).
Proof.
  intros Hp Hv Hf buf pos. unfold pbind. pose proof (Hp buf pos) as R. destruct (p buf pos) as [[a pos']|e| |] eqn:E; try exact R.
  apply Hf. now apply (Hv _ _ _ _ E).
Qed.
Lemma pvals_le k : pvals (fun n => n < 256 ^ N.of_nat k) (read_le k).
Proof.
  intros buf pos a pos'. unfold read_le, pbind, read_bytes, rbind, alloc. rewrite Nat2N.id.
  destruct (isize_max <? N.of_nat k); [discriminate|]. destruct (N.ltb_spec (N.of_nat (length buf - pos)) (N.of_nat k)); [discriminate|].
  unfold ret. intros E. injection E as <- _. pose proof (le_dec_lt (firstn k (skipn pos buf))) as L.
  rewrite firstn_length, skipn_length in L. replace (Nat.min k (length buf - pos)) with k in L by lia. exact L.
Qed.
Lemma psafe_le k : (k <= 8)%nat -> psafe (read_le k).
Proof. intros H. apply psafe_read_le. unfold isize_max. lia. Qed.
Ltac psl := first [apply psafe_ret | apply psafe_fail | apply psafe_seek | apply psafe_read_rest | apply psafe_read_until | apply (psafe_le 1); lia | apply (psafe_le 2); lia | apply (psafe_le 3); lia
  | apply (psafe_le 4); lia | apply (psafe_le 6); lia | apply (psafe_le 8); lia].
Ltac psb := apply psafe_bind; [psl|intros].
Ltac psv k := refine (psafe_bind_vals _ _ _ _ (pvals_le k) _); [psl|intros].

Lemma psafe_to_string : psafe read_to_string.
Proof. unfold read_to_string. psb. destruct (utf8_decode a); psl. Qed.
Lemma psafe_rotate : psafe parse_rotate.
Proof. unfold parse_rotate. psb. apply psafe_bind; [apply psafe_to_string|intros; psl]. Qed.
Lemma psafe_xid : psafe parse_xid.
Proof. unfold parse_xid. psl. Qed.
Lemma psafe_intvar : psafe parse_intvar.
Proof. unfold parse_intvar. psb. psb. psl. Qed.
Lemma psafe_rows_query : psafe parse_rows_query_mysql.
Proof. unfold parse_rows_query_mysql. psb. apply psafe_to_string. Qed.
Lemma psafe_query : psafe parse_query.
Proof.
  unfold parse_query. psb. psb. psv 1%nat. psb. psv 2%nat.
  apply psafe_bind; [apply psafe_read_bytes; cbn in *; unfold isize_max; lia|intros].
  apply psafe_bind; [apply psafe_string; cbn in *; unfold isize_max; lia|intros].
  psb. apply psafe_bind; [apply psafe_to_string|intros; psl].
Qed.
Lemma psafe_uservar : psafe parse_uservar.
Proof.
  unfold parse_uservar. psv 4%nat. apply psafe_bind; [apply psafe_string; cbn in *; unfold isize_max; lia|intros].
  psb. destruct (negb _); [psl|]. psb. psb. psv 4%nat.
  apply psafe_bind; [apply psafe_string; cbn in *; unfold isize_max; lia|intros]. psb. psl.
Qed.
Lemma psafe_mysql_gtid : psafe parse_mysql_gtid.
Proof. unfold parse_mysql_gtid. psb. apply psafe_bind; [apply psafe_read_bytes; unfold isize_max; lia|intros]. psb. psl. Qed.
Lemma psafe_maria_gtid h : psafe (parse_maria_gtid h).
Proof. unfold parse_maria_gtid. psb. psb. psb. psl. Qed.
Lemma psafe_maria_list : psafe parse_maria_gtid_list.
Proof.
  unfold parse_maria_gtid_list. psb. apply psafe_ploop.
  - unfold list_gtid. psb. psb. psb. psl.
  - unfold list_gtid. replace 1%nat with (1 + 0)%nat by lia. apply advances_bind; [eapply advances_weaken; [|apply advances_read_le]; lia|intros].
    replace 0%nat with (0 + 0)%nat by lia. apply advances_bind; [eapply advances_weaken; [|apply advances_read_le]; lia|intros].
    replace 0%nat with (0 + 0)%nat by lia. apply advances_bind; [eapply advances_weaken; [|apply advances_read_le]; lia|intros]. apply advances_ret.
  - unfold list_gtid. apply bounded_bind; [apply bounded_read_le; lia|intros]. apply keeps_bind; [apply keeps_read_le|intros].
    apply keeps_bind; [apply keeps_read_le|intros]. apply keeps_ret.
Qed.
(* previous GTIDs: safe unless the debug build's overflow check fires *)
Lemma psafe_prev_gtids_release : psafe (parse_prev_gtids Release).
Proof.
  assert (A : forall k n, (k <= n)%nat -> advances k (read_le n)) by (intros; eapply advances_weaken; [|apply advances_read_le]; assumption).
  assert (Hs : psafe (prev_interval Release)).
  { unfold prev_interval. psb. psb. apply psafe_bind; [apply psafe_lift; unfold usub; destruct (_ <=? _); exact I|intros]. psl. }
  assert (Ha : advances 1 (prev_interval Release)).
  { unfold prev_interval. replace 1%nat with (1 + 0)%nat by lia. apply advances_bind; [apply A; lia|intros].
    replace 0%nat with (0 + 0)%nat by lia. apply advances_bind; [apply A; lia|intros].
    replace 0%nat with (0 + 0)%nat by lia. apply advances_bind; [apply advances_lift|intros]. apply advances_ret. }
  assert (Hb : bounded (prev_interval Release)).
  { unfold prev_interval. apply bounded_bind; [apply bounded_read_le; lia|intros]. apply keeps_bind; [apply keeps_read_le|intros].
    apply keeps_bind; [apply keeps_lift|intros]. apply keeps_ret. }
  unfold parse_prev_gtids. psb. apply psafe_bind; [|intros; psl]. apply psafe_ploop.
  - unfold prev_uuid_set. apply psafe_bind; [apply psafe_read_bytes; unfold isize_max; lia|intros]. psb.
    apply psafe_bind; [now apply psafe_ploop|intros]. psl.
  - unfold prev_uuid_set. replace 1%nat with (1 + 0)%nat by lia. apply advances_bind; [eapply advances_weaken; [|apply advances_read_bytes]; lia|intros].
    replace 0%nat with (0 + 0)%nat by lia. apply advances_bind; [apply A; lia|intros].
    replace 0%nat with (0 + 0)%nat by lia. apply advances_bind; [apply advances_ploop; eapply advances_weaken; [|exact Ha]; lia|intros]. apply advances_ret.
  - unfold prev_uuid_set. apply bounded_bind; [apply bounded_read_bytes; lia|intros]. apply keeps_bind; [apply keeps_read_le|intros].
    apply keeps_bind; [apply keeps_ploop, bounded_keeps, Hb|intros]. apply keeps_ret.
Qed.
Lemma psafe_format bl h : bl = Release \/ 19 <= h_length h mod 256 -> psafe (parse_format_description bl h).
Proof.
  intros Hb. unfold parse_format_description. psb. apply psafe_bind; [apply psafe_read_bytes; unfold isize_max; lia|intros].
  apply psafe_bind; [apply psafe_lift; destruct (utf8_decode _); exact I|intros]. psb. psb. psb.
  apply psafe_bind.
  { apply psafe_lift. unfold usub. destruct (N.leb_spec 19 (h_length h mod 256)); [exact I|]. destruct Hb as [->|]; [exact I|lia]. }
  intros. apply psafe_bind; [|intros; psl]. destruct (_ =? _); [psl|]. psb. psb. apply psafe_lift. unfold checksum_from_code.
  repeat destruct (_ =? _); exact I.
Qed.
Lemma psafe_pmap {A B} (f : A -> B) p : psafe p -> psafe (pmap f p).
Proof. intros H. unfold pmap. apply psafe_bind; [exact H|intros; psl]. Qed.

Definition simple_type (c : N) : Prop := In c [4; 16; 5; 27; 29; 160; 2; 14; 33; 162; 163].
Lemma psafe_simple bl ts h : simple_type (h_type h) -> psafe (event_body bl ts h).
Proof.
  unfold event_body, simple_type. cbn [In]. intros H.
  repeat (destruct H as [<-|H]; [cbn [N.eqb Pos.eqb]; apply psafe_pmap;
    first [apply psafe_to_string | apply psafe_rotate | apply psafe_xid | apply psafe_intvar | apply psafe_rows_query | apply psafe_query
          | apply psafe_uservar | apply psafe_mysql_gtid | apply psafe_maria_gtid | apply psafe_maria_list]|]).
  contradiction.
Qed.
Lemma parse_event_returns bl st h slice : (ps_checksum st = CkNone \/ 4 <= length slice)%nat ->
  (forall p, returns (event_body bl (ps_tables st) h p 0%nat)) -> returns (parse_event bl st h slice).
Proof.
  intros Hc Hb. unfold parse_event, event_payload.
  assert (E : exists p, match ps_checksum st with CkNone => Ok slice | CkCrc32 => if (length slice <? 4)%nat then Panic else Ok (firstn (length slice - 4) slice) end = Ok p).
  { destruct (ps_checksum st); [eauto|]. destruct Hc as [Hc|Hc]; [discriminate|]. destruct (Nat.ltb_spec (length slice) 4); [lia|eauto]. }
  destruct E as [p ->]. cbn [rbind]. specialize (Hb p). destruct (event_body _ _ _ p 0%nat) as [[e pos]|e| |]; exact Hb.
Qed.
