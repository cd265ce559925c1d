(* Connections one after the other in GTID mode (C14). *)
From Verif Require Import Base.Tac Base.Bytes Base.Text Base.Res Base.Str Model.Gtid Model.GtidMaria Model.Events Model.Client
  Spec.GtidSpec Spec.ClientSpec Proofs.GtidProofs Proofs.GtidSetProofs Proofs.ClientProofs.
Local Open Scope N_scope.

Lemma completed_prefix is : forall k, exists rest, stream_txns is = completed k is ++ rest.
Proof.
  induction is as [|i is IH]; intros k; cbn [completed]; [now exists []|].
  unfold stream_txns in *. cbn [flat_map]. destruct (k <? _)%nat; [eexists; reflexivity|].
  destruct (IH (k - length (item_events i))%nat) as [rest E]. exists rest. now rewrite E, app_assoc.
Qed.
Lemma completed_all is : forall k, (length (stream_events is) <= k)%nat -> completed k is = stream_txns is.
Proof.
  induction is as [|i is IH]; intros k Hk; cbn [completed]; [reflexivity|].
  unfold stream_txns, stream_events in *. cbn [flat_map] in *. rewrite app_length in Hk.
  destruct (Nat.ltb_spec k (length (item_events i))); [lia|]. f_equal. apply IH. lia.
Qed.

Lemma missing_unique P l : forall a b, missing P l a -> missing P l b -> a = b.
Proof.
  induction l as [|t l IH]; intros a b Ha Hb; inversion Ha; subst; inversion Hb; subst; try reflexivity; try tauto; f_equal; auto.
Qed.
Lemma missing_In P l a : missing P l a -> forall t, In t a -> In t l /\ ~ in_set P t.
Proof. induction 1 as [|x l r Hx H IH|x l r Hx H IH]; intros t Ht; cbn [In] in *; [tauto|firstorder|]. destruct Ht as [<-|Ht]; firstorder. Qed.
Lemma missing_covers P l a : missing P l a -> forall t, In t l -> in_set P t \/ In t a.
Proof. induction 1 as [|x l r Hx H IH|x l r Hx H IH]; intros t Ht; cbn [In] in *; [tauto| |]; (destruct Ht as [<-|Ht]; [tauto|]); destruct (IH t Ht); tauto. Qed.

Lemma missing_nil_inv P a : missing P [] a -> a = [].
Proof. inversion 1. reflexivity. Qed.
Lemma missing_cons_inv P t l a : missing P (t :: l) a ->
  (in_set P t /\ missing P l a) \/ (~ in_set P t /\ exists r, a = t :: r /\ missing P l r).
Proof. inversion 1; subst; [left; auto|right; split; eauto]. Qed.
Lemma missing_grow P Q l : forall dn rest, NoDup (map txn_id l) -> missing P l (dn ++ rest) ->
  (forall x, In x l -> (in_set Q x <-> in_set P x \/ In (txn_id x) (map txn_id dn))) -> missing Q l rest.
Proof.
  induction l as [|t l IH]; intros dn rest Hnd H HQ.
  - apply missing_nil_inv in H. apply app_eq_nil in H. destruct H as [-> ->]. constructor.
  - cbn [map] in Hnd. apply NoDup_cons_iff in Hnd. destruct Hnd as [Ht Hnd].
    apply missing_cons_inv in H. destruct H as [[Hin H']|[Hin (r' & E & H')]].
    + apply missing_skip; [apply HQ; [now left|tauto]|]. apply (IH dn rest Hnd H'). intros x Hx. apply HQ. now right.
    + destruct dn as [|d dn]; cbn [app] in *.
      * subst rest. apply missing_send.
        { rewrite HQ by now left. cbn. tauto. }
        apply (IH [] r' Hnd H'). intros x Hx. rewrite HQ by now right. cbn. tauto.
      * injection E as -> <-. apply missing_skip.
        { apply HQ; [now left|]. right. now left. }
        apply (IH dn rest Hnd H'). intros x Hx. rewrite HQ by now right. cbn [map In]. split; [|tauto].
        intros [Hi|[E|Hi]]; [tauto| |tauto]. exfalso. apply Ht. apply in_map_iff. exists x. auto.
Qed.

Theorem connections_spec bl log : NoDup (map txn_id log) -> Forall (fun t => stream_gtid_ok (txn_gtid t)) log ->
  forall s xs s2, connections bl log s xs s2 -> set_ok s ->
  set_ok s2 /\
  (forall d n, set_has s2 d n <-> set_has s d n \/ In (d, n) (map txn_id (delivered xs))) /\
  forall todo, missing (set_has s) log todo -> exists rest, todo = delivered xs ++ rest /\ missing (set_has s2) log rest.
Proof.
  intros Hnd Hlog s xs s2 H. induction H as [s|s c x c' s1 xs s2 (Hm & Ht & Hs) Hok Hmis Hc Hs1 H IH]; intros Hsok.
  - split; [exact Hsok|]. split; [cbn; tauto|]. intros todo Hm. exists todo. split; [reflexivity|exact Hm].
  - assert (Hg : Forall (fun t => stream_gtid_ok (txn_gtid t)) (stream_txns (se_items x))).
    { apply Forall_forall. intros t Hi. apply (missing_In _ _ _ Hmis) in Hi. rewrite Forall_forall in Hlog. now apply Hlog. }
    destruct (commit_stream bl (se_items x) (se_cut x) c s Hok Hg Hm Ht Hs Hsok) as (c1 & s1' & A & B & C & D & E).
    rewrite A in Hc. injection Hc as ->. rewrite Hs1 in C. injection C as <-.
    destruct (completed_prefix (se_items x) (se_cut x)) as [rest Er].
    assert (Hh : Forall (fun g => uuid_ok (g_source g) /\ g_txn g < u64_top) (map txn_gtid (completed (se_cut x) (se_items x)))).
    { apply Forall_map. rewrite Er in Hg. apply Forall_app in Hg. destruct Hg as [Hg _].
      eapply Forall_impl; [|exact Hg]. intros t Hx. now apply stream_gtid_uuid. }
    destruct (add_all_spec bl _ s Hsok Hh) as (s1' & E1 & E2 & E3 & _). rewrite E in E1. injection E1 as <-.
    assert (Hhas : forall d n, set_has s1 d n <-> set_has s d n \/ In (d, n) (map txn_id (completed (se_cut x) (se_items x)))).
    { intros d n. rewrite E3. split; (intros [Hx|Hx]; [tauto|right]).
      - destruct Hx as (g & Hi & <- & <-). apply in_map_iff in Hi. destruct Hi as (t & <- & Hi). apply in_map_iff. exists t. auto.
      - apply in_map_iff in Hx. destruct Hx as (t & Ei & Hi). unfold txn_id in Ei. injection Ei as <- <-.
        exists (txn_gtid t). split; [apply in_map_iff; eauto|auto]. }
    destruct (IH D) as (F1 & F2 & F3). split; [exact F1|]. split.
    + intros d n. rewrite F2, Hhas. cbn [delivered flat_map]. rewrite map_app, in_app_iff. unfold delivered. tauto.
    + intros todo Hm2. assert (todo = stream_txns (se_items x)) by (eapply missing_unique; eauto). subst todo. rewrite Er in *.
      destruct (F3 rest) as (r2 & -> & Hr2).
      * apply (missing_grow (set_has s) (set_has s1) log (completed (se_cut x) (se_items x)) rest Hnd Hm2).
        intros y Hy. unfold in_set. rewrite Hhas. now rewrite <- surjective_pairing.
      * exists r2. split; [|exact Hr2]. cbn [delivered flat_map]. now rewrite <- app_assoc.
Qed.

Lemma connections_app bl log xs : forall ys s s2, connections bl log s (xs ++ ys) s2 ->
  exists s1, connections bl log s xs s1 /\ connections bl log s1 ys s2.
Proof.
  induction xs as [|x xs IH]; intros ys s s2 H; cbn [app] in H.
  - exists s. split; [constructor|exact H].
  - inversion H as [|s' c x' c' s1 rest s2' H1 H2 H3 H4 H5 H6]; subst.
    destruct (IH _ _ _ H6) as (s3 & A & B). exists s3. split; [econstructor; eauto|exact B].
Qed.
