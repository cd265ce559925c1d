From Verif Require Import Base.Tac Base.Bytes Base.Text Base.Res Base.Str Model.Gtid Model.GtidMaria Spec.GtidSpec
  Spec.GtidMariaSpec Spec.GtidTextSpec Proofs.GtidProofs Proofs.GtidSetProofs Proofs.GtidMariaProofs.
Local Open Scope N_scope.

Lemma spells_digits t n : spells t n <-> t <> [] /\ forallb is_digit t = true /\ digits_val t = n.
Proof.
  split.
  - induction 1 as [c Hc|t n c H IH Hc].
    + split; [discriminate|]. split; [|unfold digits_val; cbn [fold_left]; lia]. unfold is_digit. cbn [forallb].
      destruct (N.leb_spec 48 c), (N.leb_spec c 57); try reflexivity; lia.
    + destruct IH as (A & B & C). split; [destruct t; discriminate|]. split.
      * rewrite forallb_app, B. cbn [forallb andb]. unfold is_digit.
        destruct (N.leb_spec 48 c), (N.leb_spec c 57); try reflexivity; lia.
      * unfold digits_val in *. rewrite fold_left_app. cbn [fold_left]. rewrite C. lia.
  - revert n. induction t as [|c t IH] using rev_ind; intros n (A & B & C); [congruence|].
    rewrite forallb_app in B. apply andb_true_iff in B. destruct B as [B1 B2]. cbn [forallb] in B2.
    rewrite andb_true_r in B2. unfold is_digit in B2. assert (Hc : 48 <= c <= 57) by lia.
    unfold digits_val in C. rewrite fold_left_app in C. cbn [fold_left] in C.
    destruct t as [|d t].
    + cbn [fold_left app] in *. subst n. replace (0 * 10 + (c - 48)) with (c - 48) by lia. now constructor.
    + subst n. rewrite (N.mul_comm _ 10). constructor; [|exact Hc]. apply IH. repeat split; [discriminate|assumption].
Qed.

Lemma number_parse m t n : number m t n <-> parse_uint m t = Ok n.
Proof.
  unfold number, parse_uint. split.
  - intros [L [S|(t' & -> & S)]]; apply spells_digits in S; destruct S as (A & B & C).
    + fold (parse_uint m t). rewrite parse_uint_digits; congruence.
    + destruct t' as [|c r]; [congruence|]. unfold strip_plus. rewrite N.eqb_refl. cbn [tl]. rewrite B, C.
      destruct (N.ltb_spec n m); [reflexivity|lia].
  - intros H. destruct (strip_plus t) as [|c r] eqn:E; [discriminate|].
    destruct (forallb is_digit (c :: r)) eqn:D; [|discriminate].
    destruct (N.ltb_spec (digits_val (c :: r)) m); inv H. split; [assumption|].
    assert (S : spells (c :: r) (digits_val (c :: r))) by (apply spells_digits; repeat split; [discriminate|assumption]).
    unfold strip_plus in E. destruct t as [|x [|y t]]; [left; congruence|left; congruence|].
    destruct (N.eqb_spec x 43) as [->|]; [right; exists (y :: t); cbn [tl] in E; split; congruence|left; congruence].
Qed.

Lemma cut_split c t l : cut c t l <-> split_on c t = l.
Proof.
  unfold cut. split.
  - intros (-> & A & B). now apply split_join.
  - intros <-. split; [symmetry; apply join_split|]. split; [apply split_on_nonempty|apply split_on_no_sep].
Qed.

Lemma parse_uint_cases m t : (exists n, parse_uint m t = Ok n) \/ (exists e, parse_uint m t = Err e).
Proof. pose proof (parse_uint_returns m t) as H. destruct (parse_uint m t); cbn in H; try tauto; eauto. Qed.

Lemma u32_pow : u32max1 = 2 ^ 32. Proof. reflexivity. Qed.
Lemma u64_pow : u64max1 = 2 ^ 64. Proof. reflexivity. Qed.

(* ---------- MariaDB ---------- *)
Lemma parse_mgtid_ok p d : maria_part p d <-> exists g, parse_mgtid p = Ok g /\ mg_domain g = d.
Proof.
  unfold maria_part, parse_mgtid. rewrite <- u32_pow, <- u64_pow. split.
  - intros (a & b & c & more & s & q & C & A & B & Q). apply cut_split in C. apply number_parse in A, B, Q.
    rewrite C, A. cbn [rbind]. rewrite B. cbn [rbind]. rewrite Q. cbn [rbind]. eauto.
  - intros (g & H & <-). destruct (split_on 45 p) as [|a [|b [|c more]]] eqn:C; try discriminate.
    + destruct (parse_uint u32max1 a); discriminate.
    + destruct (parse_uint u32max1 a); [|discriminate..]. cbn [rbind] in H. destruct (parse_uint u32max1 b); discriminate.
    + destruct (parse_uint u32max1 a) as [d|e| |] eqn:A; cbn [rbind] in H; try discriminate.
      destruct (parse_uint u32max1 b) as [s|e| |] eqn:B; cbn [rbind] in H; try discriminate.
      destruct (parse_uint u64max1 c) as [q|e| |] eqn:Q; cbn [rbind] in H; try discriminate. inv H.
      exists a, b, c, more, s, q. rewrite cut_split, !number_parse. auto.
Qed.
Lemma parse_mgtid_panic p : maria_short p <-> parse_mgtid p = Panic.
Proof.
  unfold maria_short, parse_mgtid. rewrite <- u32_pow. split.
  - intros (a & d & A & [C|(b & s & C & B)]); apply cut_split in C; apply number_parse in A; rewrite C, A; cbn [rbind]; [reflexivity|].
    apply number_parse in B. rewrite B. reflexivity.
  - intros H. destruct (split_on 45 p) as [|a [|b [|c more]]] eqn:C.
    + now apply split_on_nonempty in C.
    + destruct (parse_uint_cases u32max1 a) as [(d & A)|(e & A)]; rewrite A in H; [|discriminate].
      exists a, d. rewrite number_parse, cut_split. auto.
    + destruct (parse_uint_cases u32max1 a) as [(d & A)|(e & A)]; rewrite A in H; [|discriminate]. cbn [rbind] in H.
      destruct (parse_uint_cases u32max1 b) as [(s & B)|(e & B)]; rewrite B in H; [|discriminate].
      exists a, d. rewrite number_parse. split; [exact A|]. right. exists b, s. rewrite cut_split, number_parse. auto.
    + destruct (parse_uint_cases u32max1 a) as [(d & A)|(e & A)]; rewrite A in H; [|discriminate]. cbn [rbind] in H.
      destruct (parse_uint_cases u32max1 b) as [(s & B)|(e & B)]; rewrite B in H; [|discriminate]. cbn [rbind] in H.
      destruct (parse_uint_cases u64max1 c) as [(q & Q)|(e & Q)]; rewrite Q in H; discriminate.
Qed.
Lemma parse_mgtid_never_diverges p : parse_mgtid p <> Diverge.
Proof.
  unfold parse_mgtid. destruct (split_on 45 p) as [|a [|b [|c more]]]; try discriminate;
  destruct (parse_uint_cases u32max1 a) as [(d & A)|(e & A)]; rewrite A; cbn [rbind]; try discriminate;
  destruct (parse_uint_cases u32max1 b) as [(s & B)|(e & B)]; rewrite B; cbn [rbind]; try discriminate.
  destruct (parse_uint_cases u64max1 c) as [(q & Q)|(e & Q)]; rewrite Q; discriminate.
Qed.

Lemma existsb_In d seen : existsb (N.eqb d) seen = true <-> In d seen.
Proof.
  rewrite existsb_exists. split.
  - intros (x & H & E). apply N.eqb_eq in E. now subst.
  - intros H. exists d. split; [exact H|apply N.eqb_refl].
Qed.

Lemma parse_mgtids_panic parts : forall seen acc, NoDup seen ->
  (parse_mgtids parts seen acc = Panic <->
   exists before p after ds, parts = before ++ p :: after /\ Forall2 maria_part before ds /\ NoDup (rev ds ++ seen) /\ maria_short p).
Proof.
  induction parts as [|p parts IH]; intros seen acc N.
  - cbn [parse_mgtids]. split; [discriminate|]. intros ([|b before] & p & after & ds & E & _); discriminate.
  - cbn [parse_mgtids]. destruct (parse_mgtid p) as [g|e| |] eqn:P.
    + cbn [rbind]. assert (M : maria_part p (mg_domain g)) by (apply parse_mgtid_ok; eauto).
      assert (F : forall d, maria_part p d -> d = mg_domain g).
      { intros d D. apply parse_mgtid_ok in D. destruct D as (g' & D & <-). congruence. }
      assert (NS : ~ maria_short p) by (rewrite parse_mgtid_panic, P; discriminate).
      destruct (existsb (N.eqb (mg_domain g)) seen) eqn:X.
      * apply existsb_In in X. split; [discriminate|]. intros (before & p' & after & ds & E & FA & ND & SH).
        destruct before as [|b before]; cbn [app] in E; inv E; [tauto|]. inv FA. apply F in H1. subst y.
        exfalso. cbn [rev] in ND. rewrite <- app_assoc in ND. apply NoDup_remove_2 in ND. apply ND, in_app_iff. now right.
      * assert (X' : ~ In (mg_domain g) seen) by (rewrite <- existsb_In; congruence).
        rewrite IH by now constructor. split.
        -- intros (before & p' & after & ds & -> & FA & ND & SH). exists (p :: before), p', after, (mg_domain g :: ds).
           split; [reflexivity|]. split; [now constructor|]. split; [|exact SH]. cbn [rev]. now rewrite <- app_assoc.
        -- intros (before & p' & after & ds & E & FA & ND & SH).
           destruct before as [|b before]; cbn [app] in E; inv E; [tauto|]. inv FA. apply F in H1. subst y.
           exists before, p', after, l'. repeat split; auto. cbn [rev] in ND. now rewrite <- app_assoc in ND.
    + cbn [rbind]. split; [discriminate|]. intros (before & p' & after & ds & E & FA & ND & SH).
      destruct before as [|b before]; cbn [app] in E; inv E.
      * apply parse_mgtid_panic in SH. congruence.
      * inv FA. apply parse_mgtid_ok in H1. destruct H1 as (g & H1 & _). congruence.
    + cbn [rbind]. split; [intros _|reflexivity]. exists [], p, parts, []. split; [reflexivity|]. split; [constructor|]. split; [exact N|]. now apply parse_mgtid_panic.
    + now apply parse_mgtid_never_diverges in P.
Qed.

Lemma parse_mgtids_ok parts : forall seen acc, NoDup seen ->
  ((exists l, parse_mgtids parts seen acc = Ok l) <->
   exists ds, Forall2 maria_part parts ds /\ NoDup (rev ds ++ seen)).
Proof.
  induction parts as [|p parts IH]; intros seen acc N.
  - cbn [parse_mgtids]. split; [|eauto]. intros _. exists []. split; [constructor|exact N].
  - cbn [parse_mgtids]. destruct (parse_mgtid p) as [g|e| |] eqn:P.
    + cbn [rbind]. assert (M : maria_part p (mg_domain g)) by (apply parse_mgtid_ok; eauto).
      assert (F : forall d, maria_part p d -> d = mg_domain g).
      { intros d D. apply parse_mgtid_ok in D. destruct D as (g' & D & <-). congruence. }
      destruct (existsb (N.eqb (mg_domain g)) seen) eqn:X.
      * apply existsb_In in X. split; [intros (l & E); discriminate|]. intros (ds & FA & ND). inv FA. apply F in H1. subst y.
        exfalso. cbn [rev] in ND. rewrite <- app_assoc in ND. apply NoDup_remove_2 in ND. apply ND, in_app_iff. now right.
      * assert (X' : ~ In (mg_domain g) seen) by (rewrite <- existsb_In; congruence).
        rewrite IH by now constructor. split.
        -- intros (ds & FA & ND). exists (mg_domain g :: ds). split; [now constructor|]. cbn [rev]. now rewrite <- app_assoc.
        -- intros (ds & FA & ND). inv FA. apply F in H1. subst y. exists l'. split; [assumption|]. cbn [rev] in ND. now rewrite <- app_assoc in ND.
    + cbn [rbind]. split; [intros (l & E); discriminate|]. intros (ds & FA & _). inv FA. apply parse_mgtid_ok in H1. destruct H1 as (g & H1 & _). congruence.
    + cbn [rbind]. split; [intros (l & E); discriminate|]. intros (ds & FA & _). inv FA. apply parse_mgtid_ok in H1. destruct H1 as (g & H1 & _). congruence.
    + now apply parse_mgtid_never_diverges in P.
Qed.
Lemma parse_mgtids_never_diverges parts : forall seen acc, parse_mgtids parts seen acc <> Diverge.
Proof.
  induction parts as [|p parts IH]; intros seen acc; cbn [parse_mgtids]; [discriminate|].
  destruct (parse_mgtid p) eqn:P; cbn [rbind]; try discriminate; [|now apply parse_mgtid_never_diverges in P].
  destruct (existsb _ _); [discriminate|apply IH].
Qed.

Lemma NoDup_rev_nil (ds : list N) : NoDup (rev ds ++ []) <-> NoDup ds.
Proof.
  rewrite app_nil_r. split; intros H; [rewrite <- (rev_involutive ds)|]; now apply NoDup_rev.
Qed.

(* ---------- MySQL ---------- *)
Lemma hex_val_digit c : hex_digit c <-> hex_val c <> None.
Proof.
  unfold hex_digit, hex_val.
  destruct (N.leb_spec 48 c), (N.leb_spec c 57), (N.leb_spec 97 c), (N.leb_spec c 102), (N.leb_spec 65 c), (N.leb_spec c 70);
    cbn [andb]; split; intros; try congruence; try lia.
Qed.
Lemma hex_decode_iff t : (exists v, hex_decode t = Some v) <-> Forall hex_digit t /\ Nat.Even (length t).
Proof.
  remember (length t) as n eqn:Hn. revert t Hn. induction n as [n IH] using lt_wf_ind. intros t Hn.
  destruct t as [|a [|b r]]; cbn [hex_decode].
  - split; [intros _|eauto]. subst n. split; [constructor|exists 0%nat; reflexivity].
  - split; [intros (v & E); discriminate|]. intros [_ [k E]]. subst n. cbn [length] in E. lia.
  - subst n. cbn [length] in *. destruct (IH (length r) ltac:(lia) r eq_refl) as [I1 I2]. split.
    + intros (v & E). destruct (hex_val a) eqn:A; [|discriminate]. destruct (hex_val b) eqn:B; [|discriminate].
      destruct (hex_decode r) eqn:R; [|discriminate]. destruct I1 as [F [k K]]; [eauto|]. split.
      * apply Forall_cons; [apply hex_val_digit; congruence|]. apply Forall_cons; [apply hex_val_digit; congruence|exact F].
      * exists (S k). lia.
    + intros [F [k K]]. inv F. inv H2. apply hex_val_digit in H1, H3.
      destruct (hex_val a); [|congruence]. destruct (hex_val b); [|congruence].
      destruct I2 as (v & ->); [|eauto]. split; [assumption|]. exists (k - 1)%nat. lia.
Qed.

Lemma uuid_parse_cases p :
  (id_full p /\ exists u, uuid_parse (firstn 36 p) = Ok u) \/
  (id_short p /\ uuid_parse (firstn 36 p) = Panic) \/
  (~ id_full p /\ ~ id_short p /\ exists e, uuid_parse (firstn 36 p) = Err e).
Proof.
  unfold uuid_parse, id_full, id_short. change (remove_char 45 (firstn 36 p)) with (id_chars p).
  pose proof (hex_decode_iff (id_chars p)) as HI. destruct (hex_decode (id_chars p)) as [v|] eqn:E.
  - destruct HI as [[F V] _]; [eauto|]. apply hex_decode_length in E.
    destruct (Nat.ltb_spec (length v) 16); [right; left|left]; (split; [repeat split; auto; lia|eauto]).
  - right. right. assert (X : ~ (Forall hex_digit (id_chars p) /\ Nat.Even (length (id_chars p)))).
    { intros X. apply HI in X. destruct X. discriminate. }
    split; [tauto|]. split; [tauto|eauto].
Qed.
Lemma id_full_not_short p : id_full p -> ~ id_short p.
Proof. intros (_ & _ & A) (_ & _ & B). lia. Qed.

Lemma parse_interval_token tok hi : iv_token tok hi <-> exists i, parse_interval tok = Ok i /\ iend i = hi.
Proof.
  unfold iv_token, parse_interval. rewrite <- u64_pow. split.
  - intros [[C A]|(a & b & lo & C & A & B)]; apply cut_split in C; rewrite C; apply number_parse in A; rewrite A; cbn [rbind].
    + eauto.
    + apply number_parse in B. rewrite B. cbn [rbind]. eauto.
  - intros (i & H & <-). destruct (split_on 45 tok) as [|a [|b [|c r]]] eqn:C; try discriminate.
    + assert (a = tok) as -> by (rewrite <- (join_split 45 tok), C; reflexivity).
      destruct (parse_uint u64max1 tok) eqn:A; cbn [rbind] in H; try discriminate. inv H.
      left. rewrite cut_split, number_parse. auto.
    + destruct (parse_uint u64max1 a) eqn:A; cbn [rbind] in H; try discriminate.
      destruct (parse_uint u64max1 b) eqn:B; cbn [rbind] in H; try discriminate. inv H.
      right. exists a, b, a0. rewrite cut_split, !number_parse. auto.
Qed.
Lemma parse_interval_top tok i : parse_interval tok = Ok i -> iend i < u64max1.
Proof.
  unfold parse_interval. destruct (split_on 45 tok) as [|a [|b [|c r]]]; try discriminate; intros H.
  - destruct (parse_uint u64max1 a) eqn:A; cbn [rbind] in H; try discriminate. inv H. now apply parse_uint_lt in A.
  - destruct (parse_uint u64max1 a) eqn:A; cbn [rbind] in H; try discriminate.
    destruct (parse_uint u64max1 b) eqn:B; cbn [rbind] in H; try discriminate. inv H. now apply parse_uint_lt in B.
Qed.

Lemma crec_cases bl : forall rest a, Forall (fun i => iend i < u64max1) (a :: rest) ->
  (bl = Debug /\ top_inside (map iend (a :: rest)) /\ crec bl a rest = Panic) \/
  ((bl = Debug -> ~ top_inside (map iend (a :: rest))) /\ exists r, crec bl a rest = Ok r).
Proof.
  unfold top_inside. induction rest as [|b rest IH]; intros a F; cbn [crec].
  - right. split; [cbn; tauto|eauto].
  - inv F. cbn [map removelast].
    assert (G : forall x, iend x = iend b -> Forall (fun i => iend i < u64max1) (x :: rest)).
    { intros x X. inv H2. constructor; [now rewrite X|assumption]. }
    assert (R : forall x, iend x = iend b -> map iend (x :: rest) = map iend (b :: rest)) by (intros x X; cbn [map]; now rewrite X).
    unfold uadd. destruct (N.ltb_spec (iend a + 1) u64max1) as [L|L]; cbn [rbind].
    + assert (NE : iend a <> 2 ^ 64 - 1) by (rewrite u64_pow in L; lia).
      destruct (iend a + 1 =? istart b).
      * destruct (IH (Interval (istart a) (iend b)) (G (Interval (istart a) (iend b)) eq_refl)) as [(-> & T & E)|[T (r & E)]]; rewrite R in T by reflexivity; rewrite E.
        -- left. split; [reflexivity|]. split; [now right|reflexivity].
        -- right. split; [intros D [X|X]; [congruence|now apply T in X]|eauto].
      * destruct (IH b (G _ eq_refl)) as [(-> & T & E)|[T (r & E)]]; rewrite E; cbn [rbind].
        -- left. split; [reflexivity|]. split; [now right|reflexivity].
        -- right. split; [intros D [X|X]; [congruence|now apply T in X]|eauto].
    + assert (EQ : iend a = 2 ^ 64 - 1) by (rewrite u64_pow in *; lia).
      destruct bl; cbn [rbind].
      * left. split; [reflexivity|]. split; [now left|reflexivity].
      * right. split; [discriminate|]. destruct (_ =? istart b).
        -- destruct (IH (Interval (istart a) (iend b)) (G (Interval (istart a) (iend b)) eq_refl)) as [(D & _)|[_ E]]; [discriminate|exact E].
        -- destruct (IH b (G _ eq_refl)) as [(D & _)|[_ (r & ->)]]; [discriminate|]. cbn [rbind]. eauto.
Qed.

Lemma mapM_cases toks :
  (exists ivs, mapM parse_interval toks = Ok ivs /\ Forall2 iv_token toks (map iend ivs) /\ Forall (fun i => iend i < u64max1) ivs) \/
  ((forall his, ~ Forall2 iv_token toks his) /\ exists e, mapM parse_interval toks = Err e).
Proof.
  induction toks as [|t toks IH]; cbn [mapM].
  - left. exists []. repeat split; constructor.
  - pose proof (parse_interval_returns t) as RT. destruct (parse_interval t) as [i|e| |] eqn:P; cbn in RT; try tauto; cbn [rbind].
    + destruct IH as [(ivs & -> & F & G)|[N (e & ->)]]; cbn [rbind].
      * left. exists (i :: ivs). split; [reflexivity|]. split; [constructor; [|exact F]|constructor; [|exact G]].
        -- apply parse_interval_token. eauto.
        -- now apply parse_interval_top in P.
      * right. split; [|eauto]. intros his F. inv F. now apply (N l').
    + right. split; [|eauto]. intros his F. inv F. apply parse_interval_token in H1. destruct H1 as (i & H1 & _). congruence.
Qed.
Lemma iv_token_fun t h1 h2 : iv_token t h1 -> iv_token t h2 -> h1 = h2.
Proof. rewrite !parse_interval_token. intros (i & A & <-) (j & B & <-). congruence. Qed.
Lemma mysql_part_fun p h1 h2 : mysql_part p h1 -> mysql_part p h2 -> h1 = h2.
Proof.
  intros (_ & t1 & C1 & F1) (_ & t2 & C2 & F2). apply cut_split in C1, C2. assert (t1 = t2) as <- by congruence. clear C1 C2.
  revert h2 F2. induction F1; intros h2 F2; inv F2; [reflexivity|]. f_equal; [eapply iv_token_fun; eassumption|auto].
Qed.

(* the part can be read / panics / is an error *)
Definition part_fine (bl : build) (p : text) : Prop := exists his, mysql_part p his /\ (bl = Debug -> ~ top_inside his).
Definition part_panics (bl : build) (p : text) : Prop := id_short p \/ bl = Debug /\ exists his, mysql_part p his /\ top_inside his.
Lemma parse_uuid_part_cases bl p :
  (part_fine bl p /\ ~ part_panics bl p /\ exists su, parse_uuid_part bl p = Ok su) \/
  (~ part_fine bl p /\ part_panics bl p /\ parse_uuid_part bl p = Panic) \/
  (~ part_fine bl p /\ ~ part_panics bl p /\ exists e, parse_uuid_part bl p = Err e).
Proof.
  unfold parse_uuid_part, part_fine, part_panics.
  destruct (uuid_parse_cases p) as [[I (u & U)]|[[I U]|(I1 & I2 & e & U)]]; rewrite U; cbn [rbind].
  - pose proof (id_full_not_short p I) as NS.
    assert (K : forall toks, cut 58 (skipn 37 p) toks -> toks = split_on 58 (skipn 37 p)) by (intros toks C; apply cut_split in C; congruence).
    destruct (mapM_cases (split_on 58 (skipn 37 p))) as [(ivs & -> & F & G)|[N (e & ->)]]; cbn [rbind].
    + assert (M : mysql_part p (map iend ivs)).
      { split; [exact I|]. exists (split_on 58 (skipn 37 p)). split; [now apply cut_split|exact F]. }
      unfold uuid_set_new. destruct ivs as [|a [|b rest]]; cbn [length Nat.ltb Nat.leb rbind].
      * exfalso. cbn [map] in F. inversion F as [S|]. symmetry in S. now apply split_on_nonempty in S.
      * left. assert (T : ~ top_inside (map iend [a])) by (unfold top_inside; cbn; tauto). split; [eauto|]. split; [|eauto].
        intros [X|(_ & his & X & Y)]; [tauto|]. rewrite (mysql_part_fun p _ _ X M) in Y. tauto.
      * rewrite collapse_crec. destruct (crec_cases bl (b :: rest) a G) as [(-> & T & E)|[T (r & E)]]; rewrite E; cbn [rbind].
        -- right. left. split; [|split; [right; eauto|reflexivity]]. intros (his & X & Y).
           rewrite (mysql_part_fun p _ _ X M) in Y. now apply Y.
        -- left. split; [eauto|]. split; [|eauto]. intros [X|(D & his & X & Y)]; [tauto|].
           rewrite (mysql_part_fun p _ _ X M) in Y. now apply T.
    + assert (NM : forall his, ~ mysql_part p his).
      { intros his (_ & toks & C & F). apply K in C. subst toks. now apply (N his). }
      right. right. split; [intros (his & X & _); now apply (NM his)|]. split; [|eauto].
      intros [X|(_ & his & X & _)]; [tauto|now apply (NM his)].
  - right. left. split; [|split; [now left|reflexivity]]. intros (his & (X & _) & _). now apply id_full_not_short in X.
  - right. right. split; [intros (his & (X & _) & _); tauto|]. split; [|eauto]. intros [X|(_ & his & (X & _) & _)]; tauto.
Qed.

Lemma parse_parts_panic bl parts : forall acc,
  parse_parts bl parts acc = Panic <->
  exists before p after, parts = before ++ p :: after /\ Forall (part_fine bl) before /\ part_panics bl p.
Proof.
  induction parts as [|p parts IH]; intros acc; cbn [parse_parts].
  - split; [discriminate|]. intros ([|? ?] & p & after & E & _); discriminate.
  - destruct (parse_uuid_part_cases bl p) as [(F & N & su & E)|[(F & N & E)|(F & N & e & E)]]; rewrite E; cbn [rbind].
    + rewrite IH. split.
      * intros (before & p' & after & -> & FA & PP). exists (p :: before), p', after. repeat split; auto.
      * intros (before & p' & after & X & FA & PP). destruct before as [|b before]; cbn [app] in X; inv X; [tauto|].
        inv FA. exists before, p', after. auto.
    + split; [intros _|reflexivity]. exists [], p, parts. repeat split; auto.
    + split; [discriminate|]. intros (before & p' & after & X & FA & PP). destruct before as [|b before]; cbn [app] in X; inv X; [tauto|].
      inv FA. tauto.
Qed.
Lemma parse_parts_ok_iff bl parts : forall acc, (exists s, parse_parts bl parts acc = Ok s) <-> Forall (part_fine bl) parts.
Proof.
  induction parts as [|p parts IH]; intros acc; cbn [parse_parts].
  - split; [constructor|eauto].
  - destruct (parse_uuid_part_cases bl p) as [(F & N & su & E)|[(F & N & E)|(F & N & e & E)]]; rewrite E; cbn [rbind].
    + rewrite IH. split; [now constructor|intros X; now inv X].
    + split; [intros (s & X); discriminate|intros X; now inv X].
    + split; [intros (s & X); discriminate|intros X; now inv X].
Qed.
Lemma parse_parts_never_diverges bl parts : forall acc, parse_parts bl parts acc <> Diverge.
Proof.
  induction parts as [|p parts IH]; intros acc; cbn [parse_parts]; [discriminate|].
  destruct (parse_uuid_part_cases bl p) as [(F & N & su & E)|[(F & N & E)|(F & N & e & E)]]; rewrite E; cbn [rbind]; try discriminate. apply IH.
Qed.
