From Coq Require Import Sorting.Permutation.
From Verif Require Import Base.Tac Base.Bytes Base.Text Base.Res Base.Str Model.Gtid Spec.GtidSpec.
Local Open Scope N_scope.

(* ---------- list surgery ---------- *)
Lemma list_set_mid {A} (l1 : list A) x l2 y : list_set (l1 ++ x :: l2) (length l1) y = l1 ++ y :: l2.
Proof. unfold list_set. rewrite skipn_app_exact, firstn_app_exact. reflexivity. Qed.
Lemma list_insert_mid {A} (l1 l2 : list A) y : list_insert (l1 ++ l2) (length l1) y = l1 ++ y :: l2.
Proof. unfold list_insert. now rewrite skipn_app_exact, firstn_app_exact. Qed.
Lemma nth_error_mid {A} (l1 : list A) x l2 : nth_error (l1 ++ x :: l2) (length l1) = Some x.
Proof. rewrite nth_error_app2 by lia. now rewrite Nat.sub_diag. Qed.

(* ---------- collapse ---------- *)
Fixpoint crec (bl : build) (a : interval) (rest : list interval) : res (list interval) :=
  match rest with
  | [] => Ok [a]
  | b :: r =>
    let? e := uadd u64max1 bl (iend a) 1 in
    if e =? istart b then crec bl (Interval (istart a) (iend b)) r
    else let? t := crec bl b r in Ok (a :: t)
  end.

Lemma collapse_loop_rec bl : forall fuel pre a rest, (length rest <= fuel)%nat ->
  collapse_loop fuel bl (pre ++ a :: rest) (length pre) = (let? r := crec bl a rest in Ok (pre ++ r)).
Proof.
  induction fuel as [|f IH]; intros pre a rest Hf.
  - destruct rest; [|cbn [length] in Hf; lia]. cbn [collapse_loop]. rewrite app_length. cbn [length].
    destruct (Nat.ltb_spec (length pre) (length pre + 1 - 1)); [lia|]. reflexivity.
  - cbn [collapse_loop]. rewrite app_length. cbn [length].
    destruct rest as [|b r].
    + cbn [length]. destruct (Nat.ltb_spec (length pre) (length pre + 1 - 1)); [lia|]. reflexivity.
    + cbn [length] in *. destruct (Nat.ltb_spec (length pre) (length pre + S (S (length r)) - 1)); [|lia].
      rewrite nth_error_mid.
      replace (nth_error (pre ++ a :: b :: r) (length pre + 1)) with (Some b).
      2:{ rewrite nth_error_app2 by lia. replace (length pre + 1 - length pre)%nat with 1%nat by lia. reflexivity. }
      cbn [crec]. destruct (uadd u64max1 bl (iend a) 1) as [e|e| |]; cbn [rbind]; try reflexivity.
      destruct (e =? istart b).
      * rewrite list_set_mid. unfold list_remove.
        replace (firstn (length pre + 1) (pre ++ Interval (istart a) (iend b) :: b :: r))
          with (pre ++ [Interval (istart a) (iend b)]).
        2:{ symmetry. change (pre ++ Interval (istart a) (iend b) :: b :: r) with (pre ++ [Interval (istart a) (iend b)] ++ b :: r).
            rewrite app_assoc. apply firstn_app_len. rewrite app_length. reflexivity. }
        replace (skipn (S (length pre + 1)) (pre ++ Interval (istart a) (iend b) :: b :: r)) with r.
        2:{ symmetry. change (pre ++ Interval (istart a) (iend b) :: b :: r) with (pre ++ [Interval (istart a) (iend b); b] ++ r).
            rewrite app_assoc. apply skipn_app_len. rewrite app_length. cbn [length]. lia. }
        rewrite <- app_assoc. cbn [app]. rewrite IH by lia. reflexivity.
      * replace (length pre + 1)%nat with (length (pre ++ [a])) by (rewrite app_length; reflexivity).
        change (pre ++ a :: b :: r) with (pre ++ [a] ++ b :: r). rewrite app_assoc.
        rewrite IH by lia. destruct (crec bl b r); cbn [rbind]; try reflexivity.
        now rewrite <- app_assoc.
Qed.

Lemma collapse_crec bl a rest : collapse_intervals bl (a :: rest) = crec bl a rest.
Proof.
  unfold collapse_intervals. pose proof (collapse_loop_rec bl (length (a :: rest)) [] a rest) as H.
  change ([] ++ a :: rest) with (a :: rest) in H. change (length (@nil interval)) with 0%nat in H.
  rewrite H by (cbn [length]; lia).
  destruct (crec bl a rest); reflexivity.
Qed.

Lemma u64_succ bl x : x < u64_top -> uadd u64max1 bl x 1 = Ok (x + 1).
Proof. intros H. apply uadd_ok. unfold u64max1, u64_top in *. lia. Qed.

Lemma crec_spec bl : forall rest a, iv_ok a -> Forall iv_ok rest ->
  exists r, crec bl a rest = Ok r /\ Forall iv_ok r /\ (forall n, ivs_has r n <-> ivs_has (a :: rest) n).
Proof.
  induction rest as [|b rest IH]; intros a Ha Hr; cbn [crec].
  - exists [a]. repeat split; auto. 
  - inv Hr. destruct Ha as [Ha1 Ha2]. rewrite u64_succ by exact Ha2. cbn [rbind].
    destruct (N.eqb_spec (iend a + 1) (istart b)) as [E|E].
    + destruct H1 as [Hb1 Hb2].
      destruct (IH (Interval (istart a) (iend b))) as (r & Hr & Ho & Hh); [split; cbn [istart iend]; lia|assumption|].
      exists r. split; [exact Hr|]. split; [exact Ho|]. intros n. rewrite Hh. unfold ivs_has, iv_has. split.
      * intros (i & [<-|Hi] & Hn); cbn [istart iend] in *.
        -- destruct (N.le_gt_cases n (iend a)); [exists a|exists b]; cbn [In]; split; auto; lia.
        -- exists i; cbn [In]; auto.
      * intros (i & [<-|[<-|Hi]] & Hn).
        -- eexists; split; [now left|cbn [istart iend]; lia].
        -- eexists; split; [now left|cbn [istart iend]; lia].
        -- exists i; cbn [In]; auto.
    + destruct (IH b) as (r & Hr & Ho & Hh); [assumption|assumption|].
      exists (a :: r). rewrite Hr. cbn [rbind]. split; [reflexivity|]. split; [constructor; [split; assumption|assumption]|].
      intros n. specialize (Hh n). unfold ivs_has in *. split.
      * intros (i & [<-|Hi] & Hn); [exists a; cbn [In]; auto|].
        destruct Hh as [Hh _]. destruct Hh as (j & Hj & Hjn); [eauto|]. exists j. cbn [In] in *. auto.
      * intros (i & [<-|Hi] & Hn); [exists a; cbn [In]; auto|].
        destruct Hh as [_ Hh]. destruct Hh as (j & Hj & Hjn); [eauto|]. exists j. cbn [In] in *. auto.
Qed.

(* sorted and disjoint, possibly adjacent *)
Fixpoint wcanon (ivs : list interval) : Prop :=
  match ivs with
  | [] => True
  | i :: r => istart i <= iend i /\ match r with [] => True | j :: _ => iend i < istart j end /\ wcanon r
  end.

Lemma canonical_wcanon ivs : canonical ivs -> wcanon ivs.
Proof.
  induction ivs as [|i r IH]; cbn [canonical wcanon]; auto. intros (H1 & H2 & H3). repeat split; auto.
  destruct r; auto. lia.
Qed.

Lemma crec_canonical bl : forall rest a, wcanon (a :: rest) -> Forall iv_ok (a :: rest) ->
  exists r, crec bl a rest = Ok r /\ canonical r /\ (exists i r', r = i :: r' /\ istart i = istart a).
Proof.
  induction rest as [|b rest IH]; intros a Hw Hok; cbn [crec].
  - exists [a]. repeat split; auto; [cbn in Hw; tauto|]. eauto.
  - inv Hok. destruct H1 as [Ha1 Ha2]. rewrite u64_succ by exact Ha2. cbn [rbind].
    cbn [wcanon] in Hw. destruct Hw as (Hw1 & Hw2 & Hw3 & Hw4 & Hw5).
    inv H2. destruct H1 as [Hb1 Hb2].
    destruct (N.eqb_spec (iend a + 1) (istart b)) as [E|E].
    + destruct (IH (Interval (istart a) (iend b))) as (r & Hr & Hc & i & r' & -> & Hi).
      * cbn [wcanon istart iend]. repeat split; auto. lia.
      * constructor; [split; cbn [istart iend]; lia|assumption].
      * exists (i :: r'). split; [exact Hr|]. split; [exact Hc|]. exists i, r'. auto.
    + destruct (IH b) as (r & Hr & Hc & i & r' & -> & Hi).
      * cbn [wcanon]. auto.
      * constructor; [split; assumption|assumption].
      * rewrite Hr. cbn [rbind]. exists (a :: i :: r'). split; [reflexivity|]. split.
        -- cbn [canonical]. repeat split; auto; try (cbn [canonical] in Hc; tauto). lia.
        -- eauto.
Qed.

(* a canonical list is left alone (no overflow even at the top of u64) *)
Lemma crec_id bl : forall rest a, canonical (a :: rest) -> Forall (fun i => istart i < u64max1) (a :: rest) ->
  crec bl a rest = Ok (a :: rest).
Proof.
  induction rest as [|b rest IH]; intros a Hc Hb; cbn [crec]; [reflexivity|].
  inv Hb. inv H2. cbn [canonical] in Hc. destruct Hc as (H1' & H2' & H3').
  rewrite uadd_ok by lia. cbn [rbind]. destruct (N.eqb_spec (iend a + 1) (istart b)); [lia|].
  rewrite IH; [reflexivity|exact H3'|constructor; assumption].
Qed.

(* ---------- find_interval_index ---------- *)
Lemma find_loop_ok ivs t : forall fuel left right result,
  (right - left <= fuel)%nat -> (right <= length ivs)%nat -> (result < length ivs \/ ivs = [])%nat ->
  exists r, find_loop fuel ivs t left right result = Ok r /\
            match r with inl i | inr i => (i < length ivs \/ ivs = [])%nat end.
Proof.
  induction fuel as [|f IH]; intros left right result Hf Hr Hres; cbn [find_loop];
    destruct (Nat.ltb_spec left right) as [Hlt|Hge]; try (exists (inr result); auto; fail); [lia|].
  assert (Hm : ((left + right) / 2 < right)%nat /\ (left <= (left + right) / 2)%nat) by lia.
  destruct (nth_error ivs ((left + right) / 2)) as [i|] eqn:E.
  2:{ apply nth_error_None in E. lia. }
  destruct (iend i <? t); [apply IH; lia|]. destruct (t <? istart i); [apply IH; lia|].
  eexists; split; [reflexivity|]. cbn. lia.
Qed.

Lemma find_loop_inl ivs t : forall fuel left right result i,
  find_loop fuel ivs t left right result = Ok (inl i) ->
  exists iv, nth_error ivs i = Some iv /\ istart iv <= t <= iend iv.
Proof.
  induction fuel as [|f IH]; intros left right result i H; cbn [find_loop] in H;
    destruct (left <? right)%nat; try discriminate.
  destruct (nth_error ivs ((left + right) / 2)) as [iv|] eqn:E; [|discriminate].
  destruct (N.ltb_spec (iend iv) t); [eapply IH; eassumption|].
  destruct (N.ltb_spec t (istart iv)); [eapply IH; eassumption|].
  inv H. exists iv. split; auto.
Qed.

Lemma find_interval_index_ok ivs t : exists i, find_interval_index ivs t = Ok i /\ (i <= length ivs)%nat.
Proof.
  unfold find_interval_index.
  destruct (find_loop_ok ivs t (S (length ivs)) 0 (length ivs) 0) as (r & Hl & Hr); try lia.
  { destruct ivs; [auto|cbn [length]; left; lia]. }
  rewrite Hl. cbn [rbind]. destruct r as [i|i].
  - exists i. split; auto. apply find_loop_inl in Hl. destruct Hl as (iv & Hn & _).
    assert (nth_error ivs i <> None) by congruence. apply nth_error_Some in H. lia.
  - destruct ivs as [|x ivs'] eqn:Ei.
    + cbn [length find_loop Nat.ltb Nat.leb] in Hl. inv Hl. exists 0%nat. auto.
    + destruct Hr as [Hr|Hr]; [|discriminate]. rewrite <- Ei in *.
      destruct (nth_error ivs i) as [iv|] eqn:E; [|apply nth_error_None in E; lia].
      destruct (iend iv <? t); eexists; split; try reflexivity; lia.
Qed.

(* on a sorted list: either the index of the interval that contains t, or the insertion point *)
Definition before (t : N) (l : list interval) : Prop := Forall (fun i => iend i < t) l.
Definition after (t : N) (l : list interval) : Prop := Forall (fun i => t < istart i) l.

Lemma wcanon_app_inv a b : wcanon (a ++ b) -> wcanon a /\ wcanon b.
Proof.
  induction a as [|x a IH]; cbn [app wcanon]; [tauto|]. intros (H1 & H2 & H3).
  destruct (IH H3) as [Ha Hb]. split; [|exact Hb]. split; [exact H1|]. split; [|exact Ha].
  destruct a; [exact I|exact H2].
Qed.

Lemma wcanon_lt_head i r : wcanon (i :: r) -> Forall (fun j => iend i < istart j) r.
Proof.
  revert i; induction r as [|j r IH]; intros i H; [constructor|].
  cbn [wcanon] in H. destruct H as (H1 & H2 & H3 & H4 & H5). constructor; [exact H2|].
  assert (wcanon (j :: r)) as Hj by (cbn [wcanon]; auto). apply IH in Hj.
  eapply Forall_impl; [|exact Hj]. cbn. intros; lia.
Qed.

Lemma wcanon_mid l1 i l2 : wcanon (l1 ++ i :: l2) ->
  Forall (fun j => iend j < istart i) l1 /\ istart i <= iend i /\ Forall (fun j => iend i < istart j) l2.
Proof.
  induction l1 as [|x l1 IH]; cbn [app].
  - intros H. split; [constructor|]. split; [cbn [wcanon] in H; tauto|]. now apply wcanon_lt_head.
  - intros H. pose proof (wcanon_lt_head _ _ H) as Hx. cbn [wcanon] in H. destruct H as (H1 & H2 & H3).
    destruct (IH H3) as (Ha & Hi & Hb). repeat split; auto. constructor; auto.
    rewrite Forall_app in Hx. destruct Hx as [_ Hx]. inv Hx. assumption.
Qed.

Lemma wcanon_nonempty_iv l : wcanon l -> Forall (fun i => istart i <= iend i) l.
Proof. induction l as [|i l IH]; cbn [wcanon]; [constructor|]. intros (H1 & H2 & H3). constructor; auto. Qed.

Lemma firstn_snoc {A} (l : list A) n x : nth_error l n = Some x -> firstn (n + 1) l = firstn n l ++ [x].
Proof.
  intros H. apply nth_error_split in H. destruct H as (l1 & l2 & -> & <-).
  rewrite firstn_app_exact. change (l1 ++ x :: l2) with (l1 ++ [x] ++ l2). rewrite app_assoc.
  apply firstn_app_len. rewrite app_length. reflexivity.
Qed.

Lemma find_loop_sorted ivs t : wcanon ivs -> forall fuel left right result r,
  (right <= length ivs)%nat -> (left <= right)%nat ->
  before t (firstn left ivs) -> after t (skipn right ivs) ->
  (left < right \/ (ivs = [] /\ result = 0)
   \/ (exists iv, nth_error ivs result = Some iv /\
        ((result + 1 = left /\ (iend iv < t)%N) \/ (result = left /\ (t < istart iv)%N))))%nat ->
  find_loop fuel ivs t left right result = Ok (inr r) ->
  exists k, before t (firstn k ivs) /\ after t (skipn k ivs) /\ (k <= length ivs)%nat /\
   ((ivs = [] /\ r = 0 /\ k = 0)
     \/ (exists iv, nth_error ivs r = Some iv /\
        ((r + 1 = k /\ (iend iv < t)%N) \/ (r = k /\ (t < istart iv)%N))))%nat.
Proof.
  intros Hw. induction fuel as [|f IH]; intros left right result r Hr Hlr Hb Ha Hres H; cbn [find_loop] in H;
    destruct (Nat.ltb_spec left right) as [Hlt|Hge]; try discriminate.
  - inv H. assert (left = right) by lia. subst right. exists left. repeat split; auto.
    destruct Hres as [?|[[-> ->]|Hx]]; [lia| |right; exact Hx].
    left. cbn in Hr. repeat split; lia.
  - assert (Hm : ((left + right) / 2 < right)%nat /\ (left <= (left + right) / 2)%nat) by lia.
    set (m := ((left + right) / 2)%nat) in *.
    destruct (nth_error ivs m) as [iv|] eqn:E; [|discriminate].
    pose proof (nth_error_split _ _ E) as (l1 & l2 & Hsplit & Hlen).
    pose proof Hw as Hw'. rewrite Hsplit in Hw'. apply wcanon_mid in Hw'. destruct Hw' as (W1 & W2 & W3).
    destruct (N.ltb_spec (iend iv) t) as [L|L].
    + eapply (IH (m + 1)%nat right m); try exact H; try lia; auto.
      * rewrite (firstn_snoc _ _ _ E). apply Forall_app. split; [|constructor; [exact L|constructor]].
        rewrite Hsplit, <- Hlen, firstn_app_exact. 
        assert (Hw1 : Forall (fun i => istart i <= iend i) l1).
        { apply wcanon_nonempty_iv. rewrite Hsplit in Hw. now apply wcanon_app_inv in Hw. }
        eapply Forall_impl; [|exact W1]. cbn. intros; lia.
      * right. right. exists iv. split; [exact E|]. left. split; [reflexivity|exact L].
    + destruct (N.ltb_spec t (istart iv)) as [L'|L']; [|discriminate].
      eapply (IH left m m); try exact H; try lia; auto.
      * rewrite Hsplit. replace m with (length l1). rewrite skipn_app_exact. constructor; [exact L'|].
        eapply Forall_impl; [|exact W3]. cbn. intros; lia.
      * destruct (Nat.eq_dec left m) as [<-|Hne]; [|left; lia].
        right. right. exists iv. split; [exact E|]. right. split; [reflexivity|exact L'].
  - inv H. assert (left = right) by lia. subst right. exists left. repeat split; auto.
    destruct Hres as [?|[[-> ->]|Hx]]; [lia| |right; exact Hx].
    left. cbn in Hr. repeat split; lia.
Qed.

Lemma find_interval_index_sorted ivs t i : wcanon ivs -> find_interval_index ivs t = Ok i ->
  (exists iv, nth_error ivs i = Some iv /\ iv_has iv t)
  \/ (before t (firstn i ivs) /\ after t (skipn i ivs) /\ (i <= length ivs)%nat).
Proof.
  intros Hw H. unfold find_interval_index in H.
  destruct (find_loop (S (length ivs)) ivs t 0 (length ivs) 0) as [[j|j]|e| |] eqn:E; cbn [rbind] in H; try discriminate.
  - inv H. left. apply find_loop_inl in E. exact E.
  - right. apply find_loop_sorted in E; auto; try lia.
    + destruct E as (k & Hb & Ha & Hk & [(-> & -> & ->)|(iv & Hn & Hc)]).
      * inv H. auto.
      * destruct ivs as [|x ivs']; [now destruct j|]. rewrite Hn in H.
        assert (istart iv <= iend iv).
        { pose proof (wcanon_nonempty_iv _ Hw) as Hf. rewrite Forall_forall in Hf. apply Hf. eapply nth_error_In; eassumption. }
        destruct Hc as [[Hc1 Hc2]|[Hc1 Hc2]]; destruct (N.ltb_spec (iend iv) t); inv H; auto; lia.
    + constructor.
    + rewrite skipn_all. constructor.
    + destruct ivs; [right; left; auto|left; cbn [length]; lia].
Qed.

(* ---------- UuidSet::add_gtid ---------- *)
Lemma bytes_eqb_spec a b : reflect (a = b) (bytes_eqb a b).
Proof.
  unfold bytes_eqb. revert b; induction a as [|x a IH]; intros [|y b]; cbn [length combine forallb Nat.eqb andb fst snd];
    try (constructor; congruence).
  destruct (byte_eqb_spec x y) as [->|Hn].
  - specialize (IH b). cbn [andb]. destruct ((length a =? length b)%nat && forallb (fun p => byte_eqb (fst p) (snd p)) (combine a b)) eqn:E.
    + inv IH. constructor. reflexivity.
    + inv IH. constructor. congruence.
  - cbn [andb]. rewrite andb_false_r. constructor. congruence.
Qed.

Lemma ivs_has_app a b n : ivs_has (a ++ b) n <-> ivs_has a n \/ ivs_has b n.
Proof.
  unfold ivs_has. split.
  - intros (i & Hi & Hn). apply in_app_iff in Hi. destruct Hi; [left|right]; eauto.
  - intros [(i & Hi & Hn)|(i & Hi & Hn)]; exists i; rewrite in_app_iff; auto.
Qed.
Lemma ivs_has_cons i b n : ivs_has (i :: b) n <-> iv_has i n \/ ivs_has b n.
Proof.
  unfold ivs_has. split.
  - intros (j & [<-|Hi] & Hn); eauto.
  - intros [Hn|(j & Hi & Hn)]; [exists i|exists j]; cbn [In]; auto.
Qed.
Lemma ivs_has_nil n : ivs_has [] n <-> False.
Proof. unfold ivs_has. split; [intros (j & [] & _)|tauto]. Qed.

Lemma collapse_opt_spec bl ivs : Forall iv_ok ivs -> ivs <> [] ->
  exists r, (if (1 <? length ivs)%nat then collapse_intervals bl ivs else Ok ivs) = Ok r /\
    Forall iv_ok r /\ r <> [] /\ (forall n, ivs_has r n <-> ivs_has ivs n) /\ (wcanon ivs -> canonical r).
Proof.
  intros Hok Hne. destruct ivs as [|a rest]; [congruence|].
  destruct (1 <? length (a :: rest))%nat eqn:El.
  - rewrite collapse_crec. apply Forall_cons_iff in Hok. destruct Hok as [H1 H2]. destruct (crec_spec bl rest a H1 H2) as (r & Hr & Ho & Hh).
    exists r. repeat split; auto; try apply Hh.
    + intros ->. assert (ivs_has [] (istart a)) as Hx.
      { apply Hh. apply ivs_has_cons. left. unfold iv_has. destruct H1. lia. }
      now apply ivs_has_nil in Hx.
    + intros Hw. destruct (crec_canonical bl rest a Hw) as (r' & Hr' & Hc & _); [constructor; auto|].
      congruence.
  - exists (a :: rest). cbn [length] in El. destruct rest; [|cbn [length] in El; apply Nat.ltb_ge in El; lia].
    repeat split; auto; try tauto; try discriminate. apply Forall_cons_iff in Hok. destruct Hok as [[H1 _] _]. cbn. lia.
Qed.

Lemma before_not_has t l : before t l -> ~ ivs_has l t.
Proof. unfold before, ivs_has, iv_has. rewrite Forall_forall. intros H (i & Hi & Hn). apply H in Hi. lia. Qed.
Lemma after_not_has t l : after t l -> ~ ivs_has l t.
Proof. unfold after, ivs_has, iv_has. rewrite Forall_forall. intros H (i & Hi & Hn). apply H in Hi. lia. Qed.

Lemma wcanon_join l1 i l2 :
  wcanon l1 -> wcanon (i :: l2) -> Forall (fun j => iend j < istart i) l1 -> wcanon (l1 ++ i :: l2).
Proof.
  induction l1 as [|x l1 IH]; cbn [app]; intros H1 H2 Hf; [exact H2|].
  inv Hf. cbn [wcanon] in H1. destruct H1 as (A & B & C).
  change (wcanon (x :: (l1 ++ i :: l2))). cbn [wcanon]. split; [exact A|]. split.
  - destruct l1; cbn [app]; assumption.
  - apply IH; auto.
Qed.

Lemma touch_spec bl ivs index t :
  Forall iv_ok ivs -> t < u64_top -> (index <= length ivs)%nat ->
  exists r, touch_interval bl ivs index t = Ok r /\
    match r with
    | None => ivs_has ivs t
    | Some (ivs', added) =>
      let out := if added then ivs' else list_insert ivs' index (Interval t t) in
      Forall iv_ok out /\ out <> [] /\ (forall n, ivs_has out n <-> ivs_has ivs n \/ n = t) /\
      (canonical ivs -> before t (firstn index ivs) -> after t (skipn index ivs) -> wcanon out)
    end.
Proof.
  intros Hok Ht Hi. unfold touch_interval.
  destruct (nth_error ivs index) as [i|] eqn:E.
  - pose proof (nth_error_split _ _ E) as (l1 & l2 & -> & <-).
    apply Forall_app in Hok. destruct Hok as [Ok1 Ok2]. apply Forall_cons_iff in Ok2. destruct Ok2 as [Hiok Ok2].
    pose proof Hiok as [Hi1 Hi2].
    rewrite u64_succ by exact Ht. cbn [rbind].
    destruct (N.eqb_spec (istart i) (t + 1)) as [E1|E1].
    { eexists; split; [reflexivity|]. cbv beta iota zeta. rewrite list_set_mid. repeat split.
      - apply Forall_app. split; auto. constructor; auto. split; cbn [istart iend]; lia.
      - destruct l1; discriminate.
      - rewrite !ivs_has_app, !ivs_has_cons. unfold iv_has. cbn [istart iend]. intros [H|[H|H]]; auto.
        destruct (N.eq_dec n t); [now right|]. left. right. left. lia.
      - rewrite !ivs_has_app, !ivs_has_cons. unfold iv_has. cbn [istart iend]. intros [[H|[H|H]]| ->]; auto; right; left; lia.
      - intros Hc Hb Ha. rewrite firstn_app_exact in Hb.
        apply canonical_wcanon in Hc. pose proof (wcanon_app_inv _ _ Hc) as [W1 W2].
        apply wcanon_join; auto.
        cbn [wcanon istart iend] in *. destruct W2 as (A & B & C). repeat split; auto. lia. }
    rewrite u64_succ by exact Hi2. cbn [rbind].
    destruct (N.eqb_spec (iend i + 1) t) as [E2|E2].
    { eexists; split; [reflexivity|]. cbv beta iota zeta. rewrite list_set_mid. repeat split.
      - apply Forall_app. split; auto. constructor; auto. split; cbn [istart iend]; lia.
      - destruct l1; discriminate.
      - rewrite !ivs_has_app, !ivs_has_cons. unfold iv_has. cbn [istart iend]. intros [H|[H|H]]; auto.
        destruct (N.eq_dec n t); [now right|]. left. right. left. lia.
      - rewrite !ivs_has_app, !ivs_has_cons. unfold iv_has. cbn [istart iend]. intros [[H|[H|H]]| ->]; auto; right; left; lia.
      - intros Hc Hb Ha. rewrite skipn_app_exact in Ha. inv Ha. lia. }
    destruct ((istart i <=? t) && (t <=? iend i)) eqn:E3.
    { eexists; split; [reflexivity|]. cbn. apply ivs_has_app. right. apply ivs_has_cons. left. unfold iv_has. lia. }
    eexists; split; [reflexivity|]. cbv beta iota zeta. rewrite list_insert_mid. repeat split.
    + apply Forall_app. split; auto. constructor; [split; cbn [istart iend]; lia|constructor; auto].
    + destruct l1; discriminate.
    + rewrite !ivs_has_app, !ivs_has_cons. unfold iv_has. cbn [istart iend]. intros [H|[H|[H|H]]]; auto. right; lia.
    + rewrite !ivs_has_app, !ivs_has_cons. unfold iv_has. cbn [istart iend]. intros [[H|[H|H]]| ->]; auto; right; left; lia.
    + intros Hc Hb Ha. rewrite firstn_app_exact in Hb. rewrite skipn_app_exact in Ha.
      apply canonical_wcanon in Hc. pose proof (wcanon_app_inv _ _ Hc) as [W1 W2].
      apply wcanon_join; auto. inv Ha.
      cbn [wcanon istart iend] in *. repeat split; auto; try lia; tauto.
  - apply nth_error_None in E. assert (index = length ivs) by lia. subst index.
    eexists; split; [reflexivity|]. cbv beta iota zeta.
    replace (list_insert ivs (length ivs) (Interval t t)) with (ivs ++ [Interval t t]).
    2:{ rewrite <- (app_nil_r ivs) at 2. now rewrite list_insert_mid. }
    repeat split.
    + apply Forall_app. split; auto. constructor; [split; cbn [istart iend]; lia|constructor].
    + destruct ivs; discriminate.
    + rewrite ivs_has_app, ivs_has_cons, ivs_has_nil. unfold iv_has. cbn [istart iend]. intros [H|[H|[]]]; auto. right; lia.
    + rewrite ivs_has_app, ivs_has_cons, ivs_has_nil. unfold iv_has. cbn [istart iend]. intros [H| ->]; auto. right; left; lia.
    + intros Hc Hb Ha. rewrite firstn_all in Hb. apply wcanon_join; [now apply canonical_wcanon|cbn [wcanon istart iend]; repeat split; lia|exact Hb].
Qed.

Theorem uuid_set_add_spec bl s g :
  udata (us_source s) = udata (g_source g) -> Forall iv_ok (us_ivs s) -> g_txn g < u64_top ->
  exists b s', uuid_set_add bl s g = Ok (b, s') /\ us_source s' = us_source s /\
    Forall iv_ok (us_ivs s') /\ us_ivs s' <> [] /\
    (forall n, ivs_has (us_ivs s') n <-> ivs_has (us_ivs s) n \/ n = g_txn g) /\
    (canonical (us_ivs s) -> canonical (us_ivs s') /\ (b = true <-> ~ ivs_has (us_ivs s) (g_txn g))).
Proof.
  intros Hsrc Hok Ht. unfold uuid_set_add.
  destruct (bytes_eqb_spec (udata (us_source s)) (udata (g_source g))) as [_|Hn]; [|congruence]. cbn [negb].
  destruct (find_interval_index_ok (us_ivs s) (g_txn g)) as (index & Hidx & Hle).
  rewrite Hidx. cbn [rbind].
  destruct (touch_spec bl (us_ivs s) index (g_txn g) Hok Ht Hle) as (r & Hr & Hspec).
  rewrite Hr. cbn [rbind]. destruct r as [[ivs added]|].
  - cbn zeta in Hspec. set (out := if added then ivs else list_insert ivs index (Interval (g_txn g) (g_txn g))) in *.
    destruct Hspec as (O1 & O2 & O3 & O4).
    destruct (collapse_opt_spec bl out O1 O2) as (r & Hcr & R1 & R2 & R3 & R4).
    rewrite Hcr. cbn [rbind]. exists true, (UuidSet (us_source s) r). cbn [us_source us_ivs].
    split; [reflexivity|]. split; [reflexivity|]. split; [exact R1|]. split; [exact R2|]. split.
    + intros n. rewrite R3. apply O3.
    + intros Hc. pose proof (find_interval_index_sorted _ _ _ (canonical_wcanon _ Hc) Hidx) as Hf.
      assert (Hnot : ~ ivs_has (us_ivs s) (g_txn g)
                     /\ before (g_txn g) (firstn index (us_ivs s)) /\ after (g_txn g) (skipn index (us_ivs s))).
      { destruct Hf as [(iv & Hn & Hh)|(Hb & Ha & _)].
        - exfalso. unfold touch_interval in Hr. rewrite Hn in Hr. unfold iv_has in Hh.
          rewrite u64_succ in Hr by exact Ht. cbn [rbind] in Hr.
          assert (iv_ok iv) as [_ Hiv]. { rewrite Forall_forall in Hok. apply Hok. eapply nth_error_In; eassumption. }
          destruct (N.eqb_spec (istart iv) (g_txn g + 1)); [lia|].
          rewrite u64_succ in Hr by exact Hiv. cbn [rbind] in Hr.
          destruct (N.eqb_spec (iend iv + 1) (g_txn g)); [lia|].
          destruct ((istart iv <=? g_txn g) && (g_txn g <=? iend iv)) eqn:E; [discriminate|lia].
        - repeat split; auto. rewrite <- (firstn_skipn index (us_ivs s)), ivs_has_app.
          intros [H|H]; [now apply before_not_has in H|now apply after_not_has in H]. }
      destruct Hnot as (Hnot & Hb & Ha). split; [apply R4, O4; auto|]. tauto.
  - exists false, s. split; [reflexivity|]. split; [reflexivity|]. split; [exact Hok|]. split.
    { intros E. rewrite E in Hspec. now apply ivs_has_nil in Hspec. }
    split.
    + intros n. split; [auto|]. intros [H| ->]; auto.
    + intros Hc. split; [exact Hc|]. split; [discriminate|]. tauto.
Qed.
