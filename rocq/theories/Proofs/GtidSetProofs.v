From Coq Require Import Sorting.Permutation.
From Verif Require Import Base.Tac Base.Bytes Base.Text Base.Res Base.Str Model.Gtid Spec.GtidSpec Proofs.GtidProofs.
Local Open Scope N_scope.

(* ---------- hash map as association list ---------- *)
Lemma hm_get_In {V} k (m : list (text * V)) v : hm_get k m = Some v -> In (k, v) m.
Proof.
  induction m as [|[k' v'] m IH]; cbn [hm_get]; [discriminate|].
  destruct (text_eqb_spec k k') as [<-|Hn]; [intros H; inv H; now left|]. intros H; right; auto.
Qed.
Lemma hm_get_None {V} k (m : list (text * V)) : hm_get k m = None <-> ~ In k (map fst m).
Proof.
  induction m as [|[k' v'] m IH]; cbn [hm_get map fst In]; [tauto|].
  destruct (text_eqb_spec k k') as [<-|Hn]; [split; [discriminate|tauto]|].
  rewrite IH. split; [intros H [E|H']; [congruence|tauto]|tauto].
Qed.
Lemma hm_put_keys {V} k v (m : list (text * V)) x : In x (map fst (hm_put k v m)) <-> x = k \/ In x (map fst m).
Proof.
  induction m as [|[k' v'] m IH]; cbn [hm_put map fst In]; [intuition congruence|].
  destruct (text_eqb_spec k k') as [<-|Hn]; cbn [map fst In]; [intuition congruence|].
  rewrite IH. tauto.
Qed.
Lemma hm_put_NoDup {V} k v (m : list (text * V)) : NoDup (map fst m) -> NoDup (map fst (hm_put k v m)).
Proof.
  induction m as [|[k' v'] m IH]; cbn [hm_put map fst]; intros H; [repeat constructor; auto|].
  apply NoDup_cons_iff in H. destruct H as [H1 H2].
  destruct (text_eqb_spec k k') as [<-|Hn]; cbn [map fst]; constructor; auto.
  rewrite hm_put_keys. intros [E|H]; [congruence|tauto].
Qed.
Lemma hm_put_In {V} k v (m : list (text * V)) e : NoDup (map fst m) ->
  In e (hm_put k v m) <-> e = (k, v) \/ (In e m /\ fst e <> k).
Proof.
  induction m as [|[k' v'] m IH]; cbn [hm_put map fst In]; intros H.
  - split; [intros [<-|[]]; auto|intros [->|[[] _]]; auto].
  - apply NoDup_cons_iff in H. destruct H as [H1 H2].
    destruct (text_eqb_spec k k') as [<-|Hn]; cbn [In].
    + split.
      * intros [<-|Hi]; [now left|]. right. split; [now right|].
        intros E. apply H1. apply in_map_iff. exists e. auto.
      * intros [->|[[<-|Hi] Hk]]; [now left|cbn [fst] in Hk; congruence|now right].
    + rewrite IH by exact H2. split.
      * intros [<-|[->|[Hi Hk]]]; [right; split; [now left|cbn [fst]; congruence]|now left|right; auto].
      * intros [->|[[<-|Hi] Hk]]; auto.
Qed.
Lemma hm_get_unique {V} k (m : list (text * V)) v : NoDup (map fst m) -> In (k, v) m -> hm_get k m = Some v.
Proof.
  induction m as [|[k' v'] m IH]; cbn [hm_get map fst]; intros H; [intros []|].
  apply NoDup_cons_iff in H. destruct H as [H1 H2].
  destruct (text_eqb_spec k k') as [<-|Hn]; intros [E|Hi].
  - inv E. reflexivity.
  - exfalso. apply H1. apply in_map_iff. exists (k, v). auto.
  - inv E. congruence.
  - auto.
Qed.
Lemma hm_put_new {V} k v (m : list (text * V)) : ~ In k (map fst m) -> hm_put k v m = m ++ [(k, v)].
Proof.
  induction m as [|[k' v'] m IH]; cbn [hm_put map fst In app]; intros H; [reflexivity|].
  destruct (text_eqb_spec k k') as [<-|Hn]; [tauto|]. f_equal. apply IH. tauto.
Qed.

(* ---------- uuids ---------- *)
Lemma uuid_ok_length u : uuid_ok u -> length (udata u) = 16%nat.
Proof.
  unfold uuid_ok, uuid_parse. destruct (hex_decode _) as [v|]; [|discriminate].
  destruct (Nat.ltb_spec (length v) 16); [discriminate|]. intros E. assert (E' : udata u = firstn 16 v) by (injection E as E; rewrite <- E; reflexivity).
  rewrite E', firstn_length. lia.
Qed.
Lemma uuid_ok_text_inj u v : uuid_ok u -> uuid_ok v -> utext u = utext v -> u = v.
Proof. unfold uuid_ok. intros Hu Hv E. rewrite E in Hu. congruence. Qed.

(* ---------- add_gtid on the whole set ---------- *)
Definition ent_ok (e : text * uuid_set) : Prop :=
  fst e = utext (us_source (snd e)) /\ uuid_ok (us_source (snd e)) /\ Forall iv_ok (us_ivs (snd e)).

Theorem gtid_set_add_spec bl s g :
  set_ok s -> uuid_ok (g_source g) -> g_txn g < u64_top ->
  exists b s' us us', gtid_set_add bl s g = Ok (b, s') /\ set_ok s' /\
    (forall d n, set_has s' d n <-> set_has s d n \/ (d = udata (g_source g) /\ n = g_txn g)) /\
    us = match hm_get (utext (g_source g)) s with Some us => us | None => UuidSet (g_source g) [] end /\
    s' = hm_put (utext (g_source g)) us' s /\
    us_source us = g_source g /\ us_source us' = g_source g /\ us_ivs us' <> [] /\
    (forall n, ivs_has (us_ivs us') n <-> ivs_has (us_ivs us) n \/ n = g_txn g) /\
    (canonical (us_ivs us) -> canonical (us_ivs us') /\ (b = true <-> ~ ivs_has (us_ivs us) (g_txn g))).
Proof.
  intros [Hnd Hents] Hg Ht. unfold gtid_set_add. set (k := utext (g_source g)).
  set (us := match hm_get k s with Some us => us | None => UuidSet (g_source g) [] end).
  assert (Hus : us_source us = g_source g /\ Forall iv_ok (us_ivs us)).
  { unfold us. destruct (hm_get k s) as [u|] eqn:E; [|cbn; auto].
    apply hm_get_In in E. rewrite Forall_forall in Hents. apply Hents in E. cbn [fst snd] in E.
    destruct E as (E1 & E2 & E3). split; [|exact E3].
    apply uuid_ok_text_inj; auto. }
  destruct Hus as [Hsrc Hivs].
  destruct (uuid_set_add_spec bl us g) as (b & us' & Hadd & S1 & S2 & S3 & S4 & S5); auto.
  { now rewrite Hsrc. }
  rewrite Hadd. cbn [rbind fst snd].
  exists b, (hm_put k us' s), us, us'. split; [reflexivity|]. split.
  { split; [now apply hm_put_NoDup|]. apply Forall_forall. intros e He.
    apply hm_put_In in He; [|exact Hnd]. destruct He as [->|[He _]].
    - cbn [fst snd]. rewrite S1, Hsrc. repeat split; auto.
    - rewrite Forall_forall in Hents. auto. }
  split.
  { intros d n. unfold set_has. split.
    - intros (k' & u & Hi & Hd & Hn). apply hm_put_In in Hi; [|exact Hnd].
      destruct Hi as [E|[Hi _]].
      + inv E. apply S4 in Hn. rewrite S1, Hsrc. destruct Hn as [Hn| ->]; [|right; auto].
        left. unfold us in *. destruct (hm_get k s) as [u|] eqn:E.
        * apply hm_get_In in E. exists k, u. rewrite <- Hsrc. auto.
        * cbn [us_ivs] in Hn. now apply ivs_has_nil in Hn.
      + left. exists k', u. auto.
    - intros [(k' & u & Hi & Hd & Hn)|[-> ->]].
      + destruct (text_eqb_spec k' k) as [->|Hne].
        * pose proof (hm_get_unique _ _ _ Hnd Hi) as E. unfold us in *. rewrite E in *.
          exists k, us'. split; [apply hm_put_In; auto|]. split; [congruence|]. apply S4. auto.
        * exists k', u. split; [apply hm_put_In; auto|auto].
      + exists k, us'. split; [apply hm_put_In; auto|]. split; [congruence|]. apply S4. auto. }
  split; [reflexivity|]. split; [reflexivity|]. split; [exact Hsrc|]. split; [congruence|]. split; [exact S3|]. split; [exact S4|exact S5].
Qed.

Theorem add_all_spec bl h : forall s,
  set_ok s -> Forall (fun g => uuid_ok (g_source g) /\ g_txn g < u64_top) h ->
  exists s', add_all bl s h = Ok s' /\ set_ok s' /\
    (forall d n, set_has s' d n <-> set_has s d n \/ exists g, In g h /\ udata (g_source g) = d /\ g_txn g = n) /\
    (set_canonical s -> set_canonical s') /\
    (set_spelled s -> Forall (fun g => g_source g = uuid_new (udata (g_source g))) h -> set_spelled s').
Proof.
  induction h as [|g h IH]; intros s Hs Hh; cbn [add_all].
  - exists s. repeat split; auto; try apply Hs. intros [H|(g & [] & _)]; auto.
  - apply Forall_cons_iff in Hh. destruct Hh as [[Hg Ht] Hh].
    destruct (gtid_set_add_spec bl s g Hs Hg Ht) as (b & s1 & us & us' & Hadd & Hok & Hhas & Eus & Es1 & Hsrc & Hsrc' & Hne & Hm & Hcan).
    rewrite Hadd. cbn [rbind snd].
    destruct (IH s1 Hok Hh) as (s' & Hs' & Hok' & Hhas' & Hcan' & Hsp').
    exists s'. split; [exact Hs'|]. split; [exact Hok'|]. split; [|split].
    + intros d n. rewrite Hhas', Hhas. split.
      * intros [[H|[-> ->]]|(x & Hx & H1 & H2)]; [now left|right; exists g; cbn [In]; auto|right; exists x; cbn [In]; auto].
      * intros [H|(x & [<-|Hx] & H1 & H2)]; [auto| left; right; auto|right; eauto].
    + intros Hc. apply Hcan'. subst s1. unfold set_canonical in *. apply Forall_forall. intros e He.
      apply hm_put_In in He; [|apply Hs]. destruct He as [->|[He _]]; [|rewrite Forall_forall in Hc; auto].
      cbn [snd]. split; [|exact Hne]. apply Hcan. rewrite Eus.
      destruct (hm_get (utext (g_source g)) s) as [u|] eqn:E; [|exact I].
      apply hm_get_In in E. rewrite Forall_forall in Hc. apply Hc in E. apply E.
    + intros Hsp Hgs. apply Forall_cons_iff in Hgs. destruct Hgs as [Hg1 Hgs]. apply Hsp'; auto.
      subst s1. apply Forall_forall. intros e He.
      apply hm_put_In in He; [|apply Hs]. destruct He as [->|[He _]]; [|unfold set_spelled in Hsp; rewrite Forall_forall in Hsp; auto].
      cbn [snd]. rewrite Hsrc'. split; [exact Hg1|]. now apply uuid_ok_length.
Qed.

(* ---------- canonical form is unique ---------- *)
Lemma canonical_lb i r : canonical (i :: r) -> forall n, ivs_has r n -> iend i + 1 < n.
Proof.
  revert i; induction r as [|j r IH]; intros i Hc n Hn; [now apply ivs_has_nil in Hn|].
  cbn [canonical] in Hc. destruct Hc as (H1 & H2 & H3 & H4 & H5).
  apply ivs_has_cons in Hn. destruct Hn as [Hn|Hn]; [unfold iv_has in Hn; lia|].
  assert (canonical (j :: r)) as Hj by (cbn [canonical]; auto).
  pose proof (IH j Hj n Hn). lia.
Qed.

Theorem canonical_unique a : forall b, canonical a -> canonical b ->
  (forall n, ivs_has a n <-> ivs_has b n) -> a = b.
Proof.
  induction a as [|i a IH]; intros b Ha Hb Heq.
  - destruct b as [|j b]; [reflexivity|]. exfalso.
    assert (ivs_has [] (istart j)) as H; [|now apply ivs_has_nil in H].
    apply Heq, ivs_has_cons. left. cbn [canonical] in Hb. unfold iv_has. lia.
  - destruct b as [|j b].
    { exfalso. assert (ivs_has [] (istart i)) as H; [|now apply ivs_has_nil in H].
      apply Heq, ivs_has_cons. left. cbn [canonical] in Ha. unfold iv_has. lia. }
    pose proof (canonical_lb _ _ Ha) as La. pose proof (canonical_lb _ _ Hb) as Lb.
    assert (Ai : istart i <= iend i) by (cbn [canonical] in Ha; tauto).
    assert (Bj : istart j <= iend j) by (cbn [canonical] in Hb; tauto).
    assert (Hmem : forall n, (iv_has i n \/ ivs_has a n) <-> (iv_has j n \/ ivs_has b n)).
    { intros n. specialize (Heq n). rewrite !ivs_has_cons in Heq. exact Heq. }
    unfold iv_has in Hmem.
    assert (Es : istart i = istart j).
    { destruct (proj1 (Hmem (istart i)) ltac:(left; lia)) as [H|H];
      destruct (proj2 (Hmem (istart j)) ltac:(left; lia)) as [H'|H'];
      try apply La in H'; try apply Lb in H; lia. }
    assert (Ee : iend i = iend j).
    { destruct (N.lt_trichotomy (iend i) (iend j)) as [L|[E|L]]; [exfalso|exact E|exfalso].
      - destruct (proj2 (Hmem (iend i + 1)) ltac:(left; lia)) as [H|H]; [lia|apply La in H; lia].
      - destruct (proj1 (Hmem (iend j + 1)) ltac:(left; lia)) as [H|H]; [lia|apply Lb in H; lia]. }
    assert (i = j) by (destruct i, j; cbn in *; congruence). subst j. f_equal.
    apply IH.
    + cbn [canonical] in Ha. tauto.
    + cbn [canonical] in Hb. tauto.
    + intros n. split; intros H.
      * destruct (proj1 (Hmem n) (or_intror H)) as [H'|H']; [apply La in H; lia|exact H'].
      * destruct (proj2 (Hmem n) (or_intror H)) as [H'|H']; [apply Lb in H; lia|exact H'].
Qed.

(* ---------- uuid text ---------- *)
Lemma insert_at_split i c t : insert_at i c t = firstn i t ++ c :: skipn i t.
Proof. reflexivity. Qed.

Lemma remove_char_insert i c t : remove_char c (insert_at i c t) = remove_char c t.
Proof.
  unfold insert_at. rewrite remove_char_app. cbn [remove_char filter]. rewrite N.eqb_refl. cbn [negb].
  fold (remove_char c (skipn i t)). rewrite <- remove_char_app. now rewrite firstn_skipn.
Qed.

Lemma hex_no_dash bs : ~ In 45 (hex_encode bs).
Proof.
  intros H. pose proof (hex_encode_chars bs) as F. rewrite Forall_forall in F. apply F in H. discriminate.
Qed.

Theorem uuid_new_ok d : length d = 16%nat -> uuid_ok (uuid_new d).
Proof.
  intros H. unfold uuid_ok, uuid_parse, uuid_new. cbn [utext].
  rewrite !remove_char_insert, remove_char_clean by apply hex_no_dash.
  rewrite hex_decode_encode. rewrite H. cbn [Nat.ltb Nat.leb]. do 2 f_equal.
  rewrite <- H at 1. apply firstn_all.
Qed.
Lemma insert_at_length i c t : length (insert_at i c t) = S (length t).
Proof. unfold insert_at. rewrite <- (firstn_skipn i t) at 3. rewrite !app_length. cbn [length]. lia. Qed.
Theorem uuid_new_length d : length d = 16%nat -> length (utext (uuid_new d)) = 36%nat.
Proof. intros H. unfold uuid_new. cbn [utext]. rewrite !insert_at_length, hex_encode_length. lia. Qed.
Lemma uuid_new_ok36 d : length d = 16%nat -> uuid_ok36 (uuid_new d).
Proof. intros H. split; [now apply uuid_new_ok|now apply uuid_new_length]. Qed.
Theorem uuid_new_inj a b : length a = 16%nat -> length b = 16%nat -> utext (uuid_new a) = utext (uuid_new b) -> a = b.
Proof.
  intros Ha Hb E. pose proof (uuid_new_ok a Ha) as Oa. pose proof (uuid_new_ok b Hb) as Ob.
  pose proof (uuid_ok_text_inj _ _ Oa Ob E) as H. now injection H.
Qed.

(* ---------- same members, same text ---------- *)
Lemma spelled_key s e : set_ok s -> set_spelled s -> In e s ->
  fst e = utext (uuid_new (udata (us_source (snd e)))) /\ us_source (snd e) = uuid_new (udata (us_source (snd e))).
Proof.
  intros [_ Hs] Hsp He. rewrite Forall_forall in Hs. unfold set_spelled in Hsp. rewrite Forall_forall in Hsp.
  destruct (Hs _ He) as (H1 & H2 & H3). destruct (Hsp _ He) as [H4 _]. rewrite <- H4. auto.
Qed.

Lemma spelled_has s k us n : set_ok s -> set_spelled s -> In (k, us) s ->
  set_has s (udata (us_source us)) n <-> ivs_has (us_ivs us) n.
Proof.
  intros Hs Hsp He. split.
  - intros (k' & us' & Hi & Hd & Hn).
    destruct (spelled_key s _ Hs Hsp He) as [K1 _]. destruct (spelled_key s _ Hs Hsp Hi) as [K2 _].
    cbn [fst snd] in *. rewrite Hd in K2. rewrite <- K1 in K2. subst k'.
    assert (us' = us); [|subst; exact Hn].
    destruct Hs as [Hnd _]. pose proof (hm_get_unique _ _ _ Hnd He). pose proof (hm_get_unique _ _ _ Hnd Hi). congruence.
  - intros Hn. exists k, us. auto.
Qed.

Lemma canonical_sets_incl s1 s2 :
  set_ok s1 -> set_spelled s1 -> set_canonical s1 -> set_ok s2 -> set_spelled s2 -> set_canonical s2 ->
  (forall d n, set_has s1 d n <-> set_has s2 d n) -> forall e, In e s1 -> In e s2.
Proof.
  intros O1 P1 C1 O2 P2 C2 Heq [k us] He.
  assert (Hne : exists n, ivs_has (us_ivs us) n).
  { unfold set_canonical in C1. rewrite Forall_forall in C1. destruct (C1 _ He) as [Hc Hn]. cbn [snd] in *.
    destruct (us_ivs us) as [|i r]; [congruence|]. exists (istart i). apply ivs_has_cons. left.
    cbn [canonical] in Hc. unfold iv_has. lia. }
  destruct Hne as [n0 Hn0].
  pose proof (proj2 (spelled_has s1 k us n0 O1 P1 He) Hn0) as H0. apply Heq in H0.
  destruct H0 as (k2 & us2 & Hi2 & Hd2 & _).
  assert (us_source us2 = us_source us /\ k2 = k) as [Esrc Ek].
  { destruct (spelled_key s1 _ O1 P1 He) as [K1 S1]. destruct (spelled_key s2 _ O2 P2 Hi2) as [K2 S2].
    cbn [fst snd] in *. rewrite Hd2 in K2, S2. split; congruence. }
  assert (us_ivs us2 = us_ivs us) as Eivs.
  { apply canonical_unique.
    - unfold set_canonical in C2. rewrite Forall_forall in C2. apply (C2 _ Hi2).
    - unfold set_canonical in C1. rewrite Forall_forall in C1. apply (C1 _ He).
    - intros n. rewrite <- (spelled_has s2 k2 us2 n O2 P2 Hi2), <- (spelled_has s1 k us n O1 P1 He).
      rewrite Esrc. symmetry. apply Heq. }
  replace (k, us) with (k2, us2); [exact Hi2|].
  destruct us2, us; cbn in *; congruence.
Qed.

Lemma set_ok_NoDup s : set_ok s -> NoDup s.
Proof. intros [H _]. eapply NoDup_map_inv; exact H. Qed.

Theorem canonical_sets_perm s1 s2 :
  set_ok s1 -> set_spelled s1 -> set_canonical s1 -> set_ok s2 -> set_spelled s2 -> set_canonical s2 ->
  (forall d n, set_has s1 d n <-> set_has s2 d n) -> Permutation s1 s2.
Proof.
  intros O1 P1 C1 O2 P2 C2 Heq. apply NoDup_Permutation; auto using set_ok_NoDup.
  intros e. split; apply canonical_sets_incl; auto. intros d n. symmetry. apply Heq.
Qed.

Theorem gtid_set_text_perm o1 o2 : Permutation o1 o2 -> gtid_set_text o1 = gtid_set_text o2.
Proof. intros H. unfold gtid_set_text. f_equal. apply sort_texts_ext. now apply Permutation_map. Qed.

(* ---------- parsing ---------- *)
Lemma uuid_ok_chars u : uuid_ok u -> Forall (fun c => hex_val c <> None \/ c = 45) (utext u).
Proof.
  unfold uuid_ok, uuid_parse. destruct (hex_decode (remove_char 45 (utext u))) as [v|] eqn:E; [|discriminate].
  intros _. apply Forall_forall. intros c Hc. destruct (N.eq_dec c 45) as [->|Hn]; [now right|left].
  assert (Hin : In c (remove_char 45 (utext u))).
  { unfold remove_char. apply filter_In. split; [exact Hc|]. destruct (N.eqb_spec c 45); [congruence|reflexivity]. }
  clear Hc Hn. revert Hin. generalize dependent v. generalize (remove_char 45 (utext u)) as t. intros t.
  remember (length t) as n eqn:Hl. revert t Hl. induction n as [n IH] using lt_wf_ind. intros t Hl v E Hin.
  destruct t as [|a [|b r]]; cbn [hex_decode] in E; [destruct Hin|discriminate|].
  destruct (hex_val a) eqn:Ea; [|discriminate]. destruct (hex_val b) eqn:Eb; [|discriminate].
  destruct (hex_decode r) eqn:Er; [|discriminate].
  destruct Hin as [->|[->|Hin]]; [congruence|congruence|].
  eapply (IH (length r)); [|reflexivity|exact Er|exact Hin]. subst n. cbn [length]. lia.
Qed.

Lemma hex_char_range c : (hex_val c <> None \/ c = 45) -> c <> 44 /\ c <> 10 /\ c <> 58 /\ is_ws c = false.
Proof.
  unfold hex_val. intros [H| ->]; [|unfold is_ws; repeat split; try lia; reflexivity].
  assert ((48 <= c <= 57) \/ (97 <= c <= 102) \/ (65 <= c <= 70)) as R.
  { destruct ((48 <=? c) && (c <=? 57)) eqn:E1; [left; lia|].
    destruct ((97 <=? c) && (c <=? 102)) eqn:E2; [right; left; lia|].
    destruct ((65 <=? c) && (c <=? 70)) eqn:E3; [right; right; lia|congruence]. }
  unfold is_ws. repeat split; lia.
Qed.

Lemma num_text_digits z n : forallb is_digit (num_text z n) = true.
Proof.
  unfold num_text. rewrite forallb_app, dec_text_digits, andb_true_r.
  induction z as [|z IH]; cbn [repeat forallb]; [reflexivity|]. exact IH.
Qed.
Lemma num_text_nonempty z n : num_text z n <> [].
Proof. unfold num_text. intros H. apply app_eq_nil in H. now apply (dec_text_nonempty n). Qed.
Lemma num_text_val z n : digits_val (num_text z n) = n.
Proof.
  unfold num_text. rewrite digits_val_app, dec_text_val.
  assert (digits_val (repeat 48 z) = 0) as ->; [|lia].
  unfold digits_val. induction z as [|z IH]; [reflexivity|]. cbn [repeat fold_left]. exact IH.
Qed.
Lemma parse_num_text m z n : n < m -> parse_uint m (num_text z n) = Ok n.
Proof.
  intros H. rewrite parse_uint_digits; rewrite ?num_text_val; auto using num_text_digits, num_text_nonempty.
Qed.
Lemma num_text_In z n c : In c (num_text z n) -> 48 <= c <= 57.
Proof.
  intros H. pose proof (num_text_digits z n) as D. rewrite forallb_forall in D. apply D in H.
  unfold is_digit in H. lia.
Qed.

Lemma written_iv_chars w c : In c (written_iv_text w) -> 48 <= c <= 57 \/ c = 45.
Proof.
  destruct w; cbn [written_iv_text]; rewrite ?in_app_iff; intros H.
  - apply num_text_In in H. auto.
  - destruct H as [H|[H|H]]; [apply num_text_In in H; auto|cbn in H; destruct H as [<-|[]]; auto|apply num_text_In in H; auto].
Qed.

Lemma parse_written_iv w : written_iv_lo w < u64max1 -> written_iv_hi w < u64max1 ->
  parse_interval (written_iv_text w) = Ok (Interval (written_iv_lo w) (written_iv_hi w)).
Proof.
  intros H1 H2. unfold parse_interval. destruct w; cbn [written_iv_text written_iv_lo written_iv_hi] in *.
  - rewrite split_on_clean by (intros H; apply num_text_In in H; lia).
    rewrite parse_num_text by exact H1. reflexivity.
  - cbn [app]. rewrite split_on_app by (intros H; apply num_text_In in H; lia).
    rewrite split_on_clean by (intros H; apply num_text_In in H; lia).
    rewrite !parse_num_text by assumption. reflexivity.
Qed.

Lemma mapM_map {A B C} (f : B -> res C) (g : A -> B) (h : A -> C) l :
  Forall (fun x => f (g x) = Ok (h x)) l -> mapM f (map g l) = Ok (map h l).
Proof. induction 1 as [|x l Hx Hl IH]; cbn [map mapM]; [reflexivity|]. rewrite Hx. cbn [rbind]. rewrite IH. reflexivity. Qed.

Lemma join_cons_flat c (l : list text) x : x :: l <> [] -> c :: join [c] (x :: l) = flat_map (fun w => c :: w) (x :: l).
Proof.
  intros _. revert x; induction l as [|y l IH]; intros x; cbn [join flat_map].
  - now rewrite app_nil_r.
  - cbn [join flat_map app] in *. f_equal. f_equal. apply IH.
Qed.

(* the core `uuid:iv:iv...` of a part *)
Lemma parse_uuid_part_ok bl u (ws : list written_iv) :
  uuid_ok36 u -> ws <> [] -> Forall (fun w => written_iv_lo w < u64max1 /\ written_iv_hi w < u64max1) ws ->
  parse_uuid_part bl (utext u ++ flat_map (fun w => 58 :: written_iv_text w) ws) =
  (let? us := uuid_set_new bl u (map (fun w => Interval (written_iv_lo w) (written_iv_hi w)) ws) in Ok (u, us)).
Proof.
  intros [Hu H36] Hne Hws. unfold parse_uuid_part.
  rewrite <- H36, firstn_app_exact. unfold uuid_ok in Hu. rewrite Hu. cbn [rbind].
  destruct ws as [|w ws]; [congruence|].
  assert (E : flat_map (fun w => 58 :: written_iv_text w) (w :: ws) = 58 :: join [58] (map written_iv_text (w :: ws))).
  { cbn [map]. rewrite join_cons_flat by discriminate. cbn [flat_map]. f_equal.
    clear. induction ws as [|y ws IH]; cbn [map flat_map]; [reflexivity|]. now rewrite IH. }
  rewrite E. change (58 :: join [58] (map written_iv_text (w :: ws))) with ([58] ++ join [58] (map written_iv_text (w :: ws))).
  rewrite app_assoc. rewrite skipn_app_len by (rewrite app_length, H36; reflexivity).
  rewrite split_join.
  2:{ discriminate. }
  2:{ apply Forall_forall. intros t Ht. apply in_map_iff in Ht. destruct Ht as (x & <- & _). intros H. apply written_iv_chars in H. lia. }
  rewrite (mapM_map parse_interval written_iv_text (fun w => Interval (written_iv_lo w) (written_iv_hi w))).
  - reflexivity.
  - eapply Forall_impl; [|exact Hws]. intros a [Ha Hb]. now apply parse_written_iv.
Qed.

Definition core (p : written_part) : text := utext (wp_uuid p) ++ flat_map (fun w => 58 :: written_iv_text w) (wp_ivs p).

Lemma core_chars p c : uuid_ok (wp_uuid p) -> In c (core p) -> c <> 44 /\ c <> 10 /\ is_ws c = false.
Proof.
  intros Hu. unfold core. rewrite in_app_iff, in_flat_map. intros [H|(w & Hw & [<-|H])].
  - pose proof (uuid_ok_chars _ Hu) as F. rewrite Forall_forall in F. apply F in H. apply hex_char_range in H. tauto.
  - repeat split; try lia; reflexivity.
  - apply written_iv_chars in H. unfold is_ws. repeat split; lia.
Qed.

Lemma core_nonempty p : uuid_ok36 (wp_uuid p) -> core p <> [].
Proof. intros [_ H] E. unfold core in E. apply app_eq_nil in E. destruct E as [E _]. rewrite E in H. discriminate. Qed.

Lemma ws_no_comma w : all_ws w -> ~ In 44 w.
Proof. unfold all_ws. rewrite Forall_forall. intros H Hi. apply H in Hi. discriminate. Qed.

Lemma written_part_no_comma p : written_part_ok p -> ~ In 44 (written_part_text p).
Proof.
  intros (H1 & H2 & H3 & _) H. unfold written_part_text in H. rewrite !in_app_iff in H.
  destruct H as [H|[H|H]].
  - now apply ws_no_comma in H.
  - rewrite <- in_app_iff in H. apply (core_chars p) in H; [tauto|apply H3].
  - now apply ws_no_comma in H.
Qed.

Lemma written_part_trim p : written_part_ok p -> trim (written_part_text p) = core p.
Proof.
  intros (H1 & H2 & H3 & _). unfold written_part_text. apply trim_pad; auto.
  - apply Forall_forall. intros c Hc. apply (core_chars p) in Hc; [tauto|apply H3].
  - now apply core_nonempty.
Qed.

(* general parse theorem: the parts are cleanly separated *)
Lemma parse_parts_ok bl : forall (ps : list written_part) (uss : list uuid_set) acc,
  Forall2 (fun p us => parse_uuid_part bl (core p) = Ok (wp_uuid p, us)) ps uss ->
  NoDup (map fst acc ++ map (fun p => utext (wp_uuid p)) ps) ->
  parse_parts bl (map core ps) acc = Ok (acc ++ combine (map (fun p => utext (wp_uuid p)) ps) uss).
Proof.
  induction ps as [|p ps IH]; intros uss acc HF Hnd; inv HF; cbn [map parse_parts combine].
  - now rewrite app_nil_r.
  - rewrite H1. cbn [rbind fst snd]. rewrite hm_put_new.
    + rewrite IH with (uss := l'); auto.
      * rewrite <- app_assoc. reflexivity.
      * rewrite map_app. cbn [map fst]. rewrite <- app_assoc. exact Hnd.
    + cbn [map] in Hnd. apply NoDup_remove_2 in Hnd. rewrite in_app_iff in Hnd. tauto.
Qed.

Theorem gtid_set_parse_written bl t ps uss :
  ps <> [] -> Forall written_part_ok ps -> remove_char 10 t = written_text ps ->
  NoDup (map (fun p => utext (wp_uuid p)) ps) ->
  Forall2 (fun p us => parse_uuid_part bl (core p) = Ok (wp_uuid p, us)) ps uss ->
  gtid_set_parse bl t = Ok (combine (map (fun p => utext (wp_uuid p)) ps) uss).
Proof.
  intros Hne Hok Ht Hnd HF. unfold gtid_set_parse.
  destruct t as [|c t'].
  { cbn [remove_char filter] in Ht. exfalso.
    destruct ps as [|p ps]; [congruence|]. apply Forall_cons_iff in Hok. destruct Hok as [Hp _].
    unfold written_text in Ht. cbn [map join] in Ht.
    assert (written_part_text p <> []).
    { unfold written_part_text. intros E. apply app_eq_nil in E. destruct E as [_ E]. apply app_eq_nil in E.
      destruct E as [E _]. now apply (core_nonempty p) in E; [|apply Hp]. }
    destruct (map written_part_text ps); [congruence|].
    symmetry in Ht. apply app_eq_nil in Ht. tauto. }
  rewrite Ht. unfold written_text. rewrite split_join.
  - rewrite map_map. rewrite (map_ext_in _ core) by (intros p Hp; rewrite Forall_forall in Hok; now apply written_part_trim, Hok).
    rewrite (parse_parts_ok bl ps uss []); auto.
  - destruct ps; [congruence|discriminate].
  - apply Forall_forall. intros x Hx. apply in_map_iff in Hx. destruct Hx as (p & <- & Hp).
    rewrite Forall_forall in Hok. now apply written_part_no_comma, Hok.
Qed.

Theorem parse_keeps_all bl t ps :
  Forall written_part_ok ps -> ps <> [] -> remove_char 10 t = written_text ps ->
  NoDup (map (fun p => utext (wp_uuid p)) ps) ->
  exists s, gtid_set_parse bl t = Ok s /\ set_ok s /\
    map (fun e => us_source (snd e)) s = map wp_uuid ps /\
    forall d n, set_has s d n <-> written_has ps d n.
Proof.
  intros Hok Hne Ht Hnd.
  assert (Huss : exists uss, Forall2 (fun p us => parse_uuid_part bl (core p) = Ok (wp_uuid p, us)) ps uss /\
            Forall2 (fun p us => us_source us = wp_uuid p /\ Forall iv_ok (us_ivs us) /\
               forall n, ivs_has (us_ivs us) n <-> exists w, In w (wp_ivs p) /\ written_iv_lo w <= n <= written_iv_hi w) ps uss).
  { clear Ht Hne Hnd. induction Hok as [|p ps Hp Hps IH]; [exists []; split; constructor|].
    destruct IH as (uss & HF1 & HF2). destruct Hp as (P1 & P2 & P3 & P4 & P5).
    set (ivs := map (fun w => Interval (written_iv_lo w) (written_iv_hi w)) (wp_ivs p)).
    assert (Hivs : Forall iv_ok ivs).
    { unfold ivs. apply Forall_map. eapply Forall_impl; [|exact P5]. cbn. intros w [A B]. split; cbn [istart iend]; auto. }
    assert (Hine : ivs <> []) by (unfold ivs; destruct (wp_ivs p); [congruence|discriminate]).
    destruct (collapse_opt_spec bl ivs Hivs Hine) as (r & Hr & R1 & R2 & R3 & _).
    exists (UuidSet (wp_uuid p) r :: uss). split; constructor; auto.
    - unfold core. rewrite parse_uuid_part_ok; auto.
      + unfold uuid_set_new. fold ivs. rewrite Hr. reflexivity.
      + eapply Forall_impl; [|exact P5]. cbn. unfold u64_top, u64max1. intros w [A B]. lia.
    - cbn [us_source us_ivs]. split; [reflexivity|]. split; [exact R1|]. intros n. rewrite R3.
      unfold ivs_has, ivs. split.
      + intros (i & Hi & Hn). apply in_map_iff in Hi. destruct Hi as (w & <- & Hw). exists w. split; auto.
      + intros (w & Hw & Hn). exists (Interval (written_iv_lo w) (written_iv_hi w)). split; [apply in_map_iff; eauto|exact Hn]. }
  destruct Huss as (uss & HF1 & HF2).
  exists (combine (map (fun p => utext (wp_uuid p)) ps) uss).
  split; [now apply gtid_set_parse_written|].
  assert (Hlen : length ps = length uss) by (clear -HF1; induction HF1; cbn [length]; lia).
  assert (Hfst : map fst (combine (map (fun p => utext (wp_uuid p)) ps) uss) = map (fun p => utext (wp_uuid p)) ps).
  { clear -Hlen. revert uss Hlen. induction ps as [|p ps IH]; intros [|u uss] H; cbn [map combine fst length] in *; try lia; try reflexivity.
    f_equal. apply IH. lia. }
  split; [|split].
  - split; [now rewrite Hfst|]. clear -HF2 Hok. induction HF2 as [|p us ps uss (A & B & C) HF2 IH]; cbn [map combine]; constructor.
    + cbn [fst snd]. rewrite A. apply Forall_cons_iff in Hok. repeat split; auto. apply Hok.
    + apply IH. now apply Forall_cons_iff in Hok.
  - clear -HF2. induction HF2 as [|p us ps uss (A & B & C) HF2 IH]; cbn [map combine snd]; [reflexivity|].
    now rewrite A, IH.
  - intros d n. clear -HF2. unfold set_has, written_has. induction HF2 as [|p us ps uss (A & B & C) HF2 IH]; cbn [map combine].
    + split; [intros (k & us & [] & _)|intros (p & w & [] & _)].
    + split.
      * intros (k & u & [E|Hi] & Hd & Hn).
        -- inv E. apply C in Hn. destruct Hn as (w & Hw & Hn). exists p, w. cbn [In]. rewrite <- A. auto.
        -- destruct IH as [IH _]. destruct IH as (p' & w & Hp & Hw & Hd' & Hn'); [exists k, u; auto|].
           exists p', w. cbn [In]. auto.
      * intros (p' & w & [<-|Hp] & Hw & Hd & Hn).
        -- exists (utext (wp_uuid p)), us. cbn [In]. split; [auto|]. split; [congruence|]. apply C. eauto.
        -- destruct IH as [_ IH]. destruct IH as (k & u & Hi & Hd' & Hn'); [exists p', w; auto|].
           exists k, u. cbn [In]. auto.
Qed.

(* ---------- round trip ---------- *)
(* an entry as a written part *)
Definition iv_written (i : interval) : written_iv :=
  if istart i =? iend i then WOne 0 (istart i) else WRange 0 (istart i) 0 (iend i).
Definition entry_part (e : text * uuid_set) : written_part :=
  WPart [] (us_source (snd e)) (map iv_written (us_ivs (snd e))) [].

Lemma iv_written_text i : written_iv_text (iv_written i) = interval_text i.
Proof. unfold iv_written, interval_text. destruct (istart i =? iend i); reflexivity. Qed.
Lemma iv_written_bounds i : written_iv_lo (iv_written i) = istart i /\ written_iv_hi (iv_written i) = iend i.
Proof. unfold iv_written. destruct (N.eqb_spec (istart i) (iend i)); cbn; auto. Qed.

Lemma entry_core e : us_ivs (snd e) <> [] -> core (entry_part e) = uuid_set_text (snd e).
Proof.
  intros Hne. unfold core, entry_part, uuid_set_text. cbn [wp_uuid wp_ivs]. f_equal.
  destruct (us_ivs (snd e)) as [|i r]; [congruence|]. cbn [map app].
  rewrite join_cons_flat by discriminate. cbn [flat_map]. rewrite iv_written_text. f_equal. f_equal.
  clear. induction r as [|j r IH]; cbn [map flat_map]; [reflexivity|]. now rewrite iv_written_text, IH.
Qed.

Lemma canonical_le ivs : canonical ivs -> Forall (fun i => istart i <= iend i) ivs.
Proof. intros H. apply wcanon_nonempty_iv. now apply canonical_wcanon. Qed.

Lemma parse_entry bl e :
  uuid_ok36 (us_source (snd e)) -> canonical (us_ivs (snd e)) -> us_ivs (snd e) <> [] ->
  Forall (fun i => iend i < u64max1) (us_ivs (snd e)) ->
  parse_uuid_part bl (core (entry_part e)) = Ok (wp_uuid (entry_part e), snd e).
Proof.
  intros Hu Hc Hne Hb. unfold core, entry_part. cbn [wp_uuid wp_ivs].
  pose proof (canonical_le _ Hc) as Hle.
  assert (Hb' : Forall (fun i => istart i < u64max1) (us_ivs (snd e))).
  { rewrite Forall_forall in *. intros i Hi. specialize (Hb i Hi). specialize (Hle i Hi). lia. }
  rewrite parse_uuid_part_ok; auto.
  - rewrite map_map.
    rewrite (map_ext _ (fun i => i)) by (intros i; destruct (iv_written_bounds i) as [-> ->]; now destruct i).
    rewrite map_id. unfold uuid_set_new.
    assert (E : (if (1 <? length (us_ivs (snd e)))%nat then collapse_intervals bl (us_ivs (snd e)) else Ok (us_ivs (snd e)))
                 = Ok (us_ivs (snd e))).
    { destruct (1 <? length (us_ivs (snd e)))%nat; [|reflexivity].
      destruct (us_ivs (snd e)) as [|i r]; [congruence|]. rewrite collapse_crec. now apply crec_id. }
    rewrite E. cbn [rbind]. now destruct (snd e).
  - destruct (us_ivs (snd e)); [congruence|discriminate].
  - apply Forall_map. rewrite Forall_forall in *. intros i Hi. destruct (iv_written_bounds i) as [-> ->]. auto.
Qed.

Lemma Forall2_map_id {A B} (R : A -> B -> Prop) (f : A -> B) l : Forall (fun x => R x (f x)) l -> Forall2 R l (map f l).
Proof. induction 1; cbn [map]; constructor; auto. Qed.

(* sorting the texts is sorting the entries *)
Fixpoint insert_ent (x : text * uuid_set) (l : gtid_set) : gtid_set :=
  match l with
  | [] => [x]
  | y :: r => if text_leb (uuid_set_text (snd x)) (uuid_set_text (snd y)) then x :: l else y :: insert_ent x r
  end.
Definition sort_ents (l : gtid_set) : gtid_set := fold_right insert_ent [] l.
Lemma insert_ent_map x l :
  map (fun e => uuid_set_text (snd e)) (insert_ent x l) = insert_text (uuid_set_text (snd x)) (map (fun e => uuid_set_text (snd e)) l).
Proof.
  induction l as [|y l IH]; cbn [insert_ent map insert_text]; [reflexivity|].
  destruct (text_leb _ _); cbn [map]; [reflexivity|]. now rewrite IH.
Qed.
Lemma sort_ents_map l : map (fun e => uuid_set_text (snd e)) (sort_ents l) = sort_texts (map (fun e => uuid_set_text (snd e)) l).
Proof. induction l as [|x l IH]; cbn [sort_ents fold_right map sort_texts]; [reflexivity|].
  fold (sort_ents l). rewrite insert_ent_map, IH. reflexivity. Qed.
Lemma insert_ent_perm x l : Permutation (x :: l) (insert_ent x l).
Proof.
  induction l as [|y r IH]; cbn [insert_ent]; [reflexivity|].
  destruct (text_leb _ _); [reflexivity|]. rewrite perm_swap. now constructor.
Qed.
Lemma sort_ents_perm l : Permutation l (sort_ents l).
Proof.
  induction l as [|x l IH]; cbn [sort_ents fold_right]; [reflexivity|].
  rewrite <- insert_ent_perm. now constructor.
Qed.

Theorem parse_text_roundtrip bl s order :
  set_writable s -> Permutation order s ->
  exists s', gtid_set_parse bl (gtid_set_text order) = Ok s' /\ Permutation s' s.
Proof.
  intros Hs HP.
  assert (Hw : set_writable (sort_ents order)).
  { assert (Permutation s (sort_ents order)) as HP2 by (rewrite <- sort_ents_perm; now symmetry).
    destruct Hs as [Hn Hf]. split.
    - eapply Permutation_NoDup; [|exact Hn]. now apply Permutation_map.
    - eapply Permutation_Forall; eassumption. }
  unfold gtid_set_text. rewrite <- sort_ents_map.
  assert (HP2 : Permutation (sort_ents order) s) by (rewrite <- sort_ents_perm; exact HP).
  clear HP. revert Hw HP2. generalize (sort_ents order) as l. intros l [Hnd Hf] HP2.
  destruct l as [|e0 l0] eqn:El.
  { exists []. split; [reflexivity|exact HP2]. }
  rewrite <- El in *.
  set (ps := map entry_part l).
  assert (Htext : join [44] (map (fun e => uuid_set_text (snd e)) l) = written_text ps).
  { unfold written_text, ps. rewrite map_map. f_equal. apply map_ext_in. intros e He.
    rewrite Forall_forall in Hf. destruct (Hf e He) as (_ & _ & _ & Hne & _).
    rewrite <- (entry_core e Hne). unfold written_part_text, entry_part, core. cbn [wp_left wp_right wp_uuid wp_ivs app]. now rewrite app_nil_r. }
  assert (Huuids : map (fun p => utext (wp_uuid p)) ps = map fst l).
  { unfold ps. rewrite map_map. apply map_ext_in. intros e He. rewrite Forall_forall in Hf. destruct (Hf e He) as (-> & _). reflexivity. }
  rewrite Htext.
  assert (Hnl : remove_char 10 (written_text ps) = written_text ps).
  { apply remove_char_clean. rewrite <- Htext. clear Htext. intros Hin.
    assert (Hj : forall ts, In 10 (join [44] ts) -> exists t, In t ts /\ In 10 t).
    { clear. induction ts as [|t ts IH]; cbn [join]; [intros []|]. destruct ts as [|t2 ts].
      - intros H. exists t. cbn [In]. auto.
      - intros H. rewrite !in_app_iff in H. destruct H as [H|[H|H]]; [exists t; cbn [In]; auto|cbn in H; destruct H; [lia|tauto]|].
        apply IH in H. destruct H as (x & Hx & H). exists x. cbn [In] in *. auto. }
    apply Hj in Hin. destruct Hin as (t & Ht & Hin). apply in_map_iff in Ht. destruct Ht as (e & <- & He).
    rewrite Forall_forall in Hf. destruct (Hf e He) as (_ & Hu & _ & Hne & _).
    rewrite <- (entry_core e Hne) in Hin. apply core_chars in Hin; [tauto|apply Hu]. }
  (* the canonical bounds allow u64::MAX, so written_part_ok is not needed: redo the steps *)
  unfold gtid_set_parse.
  assert (Hnn : exists c t', written_text ps = c :: t').
  { destruct (written_text ps) as [|c t'] eqn:E; [|eauto]. exfalso.
    unfold written_text, ps in E. rewrite El in E. cbn [map] in E.
    rewrite El in Hf. apply Forall_cons_iff in Hf. destruct Hf as [(_ & Hu & _ & Hne & _) _].
    assert (written_part_text (entry_part e0) <> []) as Hx.
    { unfold written_part_text, entry_part. cbn [wp_left wp_right wp_uuid wp_ivs app]. rewrite app_nil_r.
      intros H. apply app_eq_nil in H. destruct H as [H _]. destruct Hu as [_ Hu]. rewrite H in Hu. discriminate. }
    cbn [join] in E. destruct (map written_part_text (map entry_part l0)); [congruence|].
    apply app_eq_nil in E. tauto. }
  destruct Hnn as (c & t' & Hct). rewrite Hct, <- Hct, Hnl. unfold written_text.
  rewrite split_join.
  - rewrite map_map.
    rewrite (map_ext_in _ core).
    + rewrite (parse_parts_ok bl ps (map snd l) []).
      * cbn [app]. eexists; split; [reflexivity|]. rewrite Huuids.
        replace (combine (map fst l) (map snd l)) with l; [exact HP2|].
        clear. induction l as [|[k u] l IH]; cbn [map combine fst snd]; [reflexivity|]. now rewrite <- IH.
      * unfold ps. clear -Hf. induction Hf as [|e l (H1 & H2 & H3 & H4 & H5) Hf IH]; cbn [map]; constructor; auto.
        now apply parse_entry.
      * cbn [map app]. now rewrite Huuids.
    + intros p Hp. unfold ps in Hp. apply in_map_iff in Hp. destruct Hp as (e & <- & He).
      rewrite Forall_forall in Hf. destruct (Hf e He) as (_ & Hu & _ & Hne & _).
      unfold written_part_text. apply trim_pad; try constructor.
      * apply Forall_forall. intros x Hx. apply (core_chars (entry_part e)) in Hx; [tauto|apply Hu].
      * now apply (core_nonempty (entry_part e)).
  - unfold ps. rewrite El. discriminate.
  - apply Forall_forall. intros x Hx. apply in_map_iff in Hx. destruct Hx as (p & <- & Hp).
    unfold ps in Hp. apply in_map_iff in Hp. destruct Hp as (e & <- & He).
    rewrite Forall_forall in Hf. destruct (Hf e He) as (_ & Hu & _ & Hne & _).
    unfold written_part_text, entry_part. cbn [wp_left wp_right wp_uuid wp_ivs app]. rewrite app_nil_r.
    intros H. apply (core_chars (entry_part e)) in H; [tauto|apply Hu].
Qed.

(* ---------- when parse returns normally ---------- *)
Lemma crec_returns bl : forall rest a,
  (bl = Release \/ Forall (fun i => iend i < u64_top) (a :: rest)) -> returns (crec bl a rest).
Proof.
  induction rest as [|b rest IH]; intros a H; cbn [crec]; [exact I|].
  assert (Hadd : exists e, uadd u64max1 bl (iend a) 1 = Ok e).
  { destruct H as [->|H].
    - unfold uadd. destruct (_ <? _); eauto.
    - apply Forall_cons_iff in H. destruct H as [H _]. rewrite u64_succ by exact H. eauto. }
  destruct Hadd as [e ->]. cbn [rbind]. destruct (e =? istart b).
  - apply IH. destruct H as [->|H]; [now left|right].
    inv H. inv H3. constructor; cbn [iend]; auto.
  - apply returns_bind; [|intros; exact I]. apply IH. destruct H as [->|H]; [now left|right]. now inv H.
Qed.

Lemma digits_val_lt t : forallb is_digit t = true -> digits_val t < 10 ^ N.of_nat (length t).
Proof.
  induction t as [|c t IH] using rev_ind; intros H.
  - cbn. lia.
  - rewrite forallb_app in H. apply andb_true_iff in H. destruct H as [H1 H2].
    cbn [forallb] in H2. unfold is_digit in H2. rewrite digits_val_snoc, app_length. cbn [length].
    replace (N.of_nat (length t + 1)) with (N.succ (N.of_nat (length t))) by lia. rewrite N.pow_succ_r'.
    specialize (IH H1). lia.
Qed.

Lemma parse_uint_short m t n : (length t < 20)%nat -> parse_uint m t = Ok n -> n < u64_top.
Proof.
  intros Hl. unfold parse_uint.
  assert (Hs : (length (strip_plus t) <= length t)%nat).
  { unfold strip_plus. destruct t as [|c [|d r]]; cbn [length]; try lia. destruct (c =? 43); cbn [tl length]; lia. }
  destruct (strip_plus t) as [|d ds] eqn:E; [discriminate|].
  destruct (forallb is_digit (d :: ds)) eqn:Ed; [|discriminate].
  destruct (_ <? m); [|discriminate]. intros H; inv H.
  pose proof (digits_val_lt _ Ed) as Hv.
  assert (10 ^ N.of_nat (length (d :: ds)) <= 10 ^ 19).
  { apply N.pow_le_mono_r; lia. }
  unfold u64_top. change (10 ^ 19) with 10000000000000000000 in *. lia.
Qed.

Lemma mapM_returns {A B} (f : A -> res B) l : Forall (fun x => returns (f x)) l -> returns (mapM f l).
Proof.
  induction 1 as [|x l Hx Hl IH]; cbn [mapM]; [exact I|].
  apply returns_bind; [exact Hx|]. intros y _. apply returns_bind; [exact IH|]. intros; exact I.
Qed.
Lemma mapM_Ok_Forall2 {A B} (f : A -> res B) l r : mapM f l = Ok r -> Forall2 (fun x y => f x = Ok y) l r.
Proof.
  revert r; induction l as [|x l IH]; intros r H; cbn [mapM] in H; [inv H; constructor|].
  destruct (f x) as [y|e| |] eqn:E; cbn [rbind] in H; try discriminate.
  destruct (mapM f l) as [ys|e| |] eqn:E2; cbn [rbind] in H; try discriminate. inv H.
  constructor; auto.
Qed.

Lemma parse_interval_returns tok : returns (parse_interval tok).
Proof.
  unfold parse_interval. destruct (split_on 45 tok) as [|a [|b [|c r]]]; try exact I.
  - apply returns_bind; [apply parse_uint_returns|]. intros x _.
    apply returns_bind; [apply parse_uint_returns|]. intros; exact I.
  - apply returns_bind; [apply parse_uint_returns|]. intros x _.
    apply returns_bind; [apply parse_uint_returns|]. intros; exact I.
Qed.

Lemma parse_interval_short tok i :
  Forall (fun p => (length p < 20)%nat) (split_on 45 tok) -> parse_interval tok = Ok i -> iend i < u64_top.
Proof.
  unfold parse_interval. destruct (split_on 45 tok) as [|a [|b [|c r]]]; try discriminate; intros Hl H.
  - destruct (parse_uint u64max1 a) eqn:E; cbn [rbind] in H; try discriminate. inv H. cbn [iend].
    inv Hl. eapply parse_uint_short; eassumption.
  - destruct (parse_uint u64max1 a); cbn [rbind] in H; try discriminate.
    destruct (parse_uint u64max1 b) eqn:E; cbn [rbind] in H; try discriminate. inv H. cbn [iend].
    inv Hl. inv H2. eapply parse_uint_short; eassumption.
Qed.

Lemma parse_uuid_part_returns bl p :
  part_long p -> (bl = Release \/ part_short_numbers p) -> returns (parse_uuid_part bl p).
Proof.
  intros Hl Hb. unfold parse_uuid_part. apply returns_bind.
  - unfold uuid_parse. destruct (hex_decode _) as [v|] eqn:E; [|exact I].
    apply hex_decode_length in E. unfold part_long in Hl.
    destruct (Nat.ltb_spec (length v) 16); [lia|exact I].
  - intros src _. apply returns_bind.
    + apply mapM_returns. apply Forall_forall. intros; apply parse_interval_returns.
    + intros ivs Hivs. apply returns_bind; [|intros; exact I]. unfold uuid_set_new.
      apply returns_bind; [|intros; exact I]. destruct (1 <? length ivs)%nat eqn:El; [|exact I].
      destruct ivs as [|a rest]; [discriminate|]. rewrite collapse_crec. apply crec_returns.
      destruct Hb as [->|Hb]; [now left|right]. apply mapM_Ok_Forall2 in Hivs.
      unfold part_short_numbers in Hb. revert Hb.
      generalize dependent (split_on 58 (skipn 37 p)). clear El. intros toks HF.
      remember (a :: rest) as l eqn:El. clear El. induction HF as [|x y xs ys Hxy HF IH]; intros Hb; constructor.
      * inv Hb. eapply parse_interval_short; eassumption.
      * inv Hb. now apply IH.
Qed.

Theorem gtid_set_parse_returns bl t :
  Forall (fun p => part_long (trim p) /\ (bl = Release \/ part_short_numbers (trim p))) (split_on 44 (remove_char 10 t)) ->
  returns (gtid_set_parse bl t).
Proof.
  intros H. unfold gtid_set_parse. destruct t as [|c t]; [exact I|].
  assert (G : forall parts acc, Forall (fun p => part_long p /\ (bl = Release \/ part_short_numbers p)) parts ->
             returns (parse_parts bl parts acc)).
  { induction parts as [|p parts IH]; intros acc Hp; cbn [parse_parts]; [exact I|].
    inv Hp. destruct H2 as [H2 H2']. apply returns_bind; [now apply parse_uuid_part_returns|]. intros su _. now apply IH. }
  apply G. apply Forall_map. exact H.
Qed.

Theorem spelled_unique_ids s : set_ok s -> set_spelled s -> NoDup (map (fun e => udata (us_source (snd e))) s).
Proof.
  intros [Hnd Hf] Hsp. unfold set_spelled in Hsp.
  assert (E : map fst s = map (fun d => utext (uuid_new d)) (map (fun e => udata (us_source (snd e))) s)).
  { rewrite map_map. apply map_ext_in. intros e He. rewrite Forall_forall in *.
    destruct (Hf e He) as (-> & _). destruct (Hsp e He) as [H _]. now rewrite H at 1. }
  rewrite E in Hnd. eapply NoDup_map_inv; exact Hnd.
Qed.
