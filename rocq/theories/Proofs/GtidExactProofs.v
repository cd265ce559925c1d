(* C06 and C11: what comes out of any accepted text. *)
From Verif Require Import Base.Tac Base.Bytes Base.Text Base.Res Base.Str Model.Gtid Model.GtidMaria Spec.GtidSpec Spec.GtidTextSpec Spec.GtidExactSpec
  Proofs.GtidProofs Proofs.GtidSetProofs Proofs.GtidTextProofs.
Local Open Scope N_scope.

Definition pair_of (i : interval) : N * N := (istart i, iend i).
Lemma hex_val_is c x : hex_val c = Some x -> digit_is c x.
Proof.
  unfold hex_val. destruct (N.leb_spec 48 c), (N.leb_spec c 57); cbn [andb]; try (intros E; inversion E; subst; constructor; lia);
  (destruct (N.leb_spec 97 c), (N.leb_spec c 102); cbn [andb]; try (intros E; inversion E; subst; apply di_lower; lia));
  (destruct (N.leb_spec 65 c), (N.leb_spec c 70); cbn [andb]; try discriminate; intros E; inversion E; subst; apply di_upper; lia).
Qed.
Lemma hex_decode_says t : forall v, hex_decode t = Some v -> hex_says t v.
Proof.
  remember (length t) as n eqn:Hn. revert t Hn. induction n as [n IH] using lt_wf_ind. intros t Hn v H.
  destruct t as [|a [|b r]]; cbn [hex_decode] in H; [inv H; constructor|discriminate|].
  destruct (hex_val a) eqn:A; [|discriminate]. destruct (hex_val b) eqn:B; [|discriminate]. destruct (hex_decode r) as [bs|] eqn:E; [|discriminate]. inv H.
  constructor; [now apply hex_val_is|now apply hex_val_is|]. eapply IH; [|reflexivity|exact E]. cbn [length]. lia.
Qed.
Lemma parse_interval_says tok i : parse_interval tok = Ok i -> iv_says tok (pair_of i).
Proof.
  unfold iv_says, parse_interval. rewrite <- u64_pow. intros H. destruct (split_on 45 tok) as [|a [|b [|c r]]] eqn:C; try discriminate.
  - assert (a = tok) as -> by (rewrite <- (join_split 45 tok), C; reflexivity).
    destruct (parse_uint u64max1 tok) eqn:A; cbn [rbind] in H; try discriminate. inv H. left. rewrite cut_split, number_parse. cbn [pair_of fst snd istart iend]. auto.
  - destruct (parse_uint u64max1 a) eqn:A; cbn [rbind] in H; try discriminate. destruct (parse_uint u64max1 b) eqn:B; cbn [rbind] in H; try discriminate. inv H.
    right. exists a, b. rewrite cut_split, !number_parse. auto.
Qed.
Lemma mapM_says toks : forall ivs, mapM parse_interval toks = Ok ivs -> Forall2 iv_says toks (map pair_of ivs) /\ Forall (fun i => iend i < u64max1) ivs.
Proof.
  induction toks as [|t toks IH]; intros ivs H; cbn [mapM] in H; [inv H; split; constructor|].
  destruct (parse_interval t) as [i|e| |] eqn:P; cbn [rbind] in H; try discriminate. destruct (mapM parse_interval toks) as [is|e| |]; cbn [rbind] in H; try discriminate. inv H.
  destruct (IH _ eq_refl) as [A B]. split; constructor; auto; [now apply parse_interval_says|now apply parse_interval_top in P].
Qed.

Lemma joined_head s s' e r : forall c out, joined ((s, e) :: r) (c :: out) -> fst c = s /\ joined ((s', e) :: r) ((s', snd c) :: out).
Proof.
  intros c out J. inversion J; subst; cbn [fst snd].
  - split; [reflexivity|constructor].
  - split; [reflexivity|]. change (s', snd c0) with (fst (s', e), snd c0). constructor; assumption.
  - split; [reflexivity|]. constructor; assumption.
Qed.
Lemma joined_cons l out : joined l out -> out <> []. Proof. destruct 1; discriminate. Qed.
Lemma crec_joined bl : forall rest a r, Forall (fun i => iend i < u64max1) (a :: rest) -> crec bl a rest = Ok r -> joined (map pair_of (a :: rest)) (map pair_of r).
Proof.
  induction rest as [|b rest IH]; intros a r F H; cbn [crec] in H; [inv H; constructor|]. inversion F as [|u v Fa Fr]; subst. inversion Fr as [|u v Fb Fs]; subst.
  assert (U : forall e, uadd u64max1 bl (iend a) 1 = Ok e -> e = (iend a + 1) mod 2 ^ 64).
  { intros e. unfold uadd. rewrite <- u64_pow. destruct (N.ltb_spec (iend a + 1) u64max1) as [L|L]; [intros E; injection E as <-; now rewrite N.mod_small|].
    destruct bl; intros E; inversion E. reflexivity. }
  destruct (uadd u64max1 bl (iend a) 1) as [e|x| |]; cbn [rbind] in H; try discriminate. specialize (U e eq_refl). subst e.
  destruct (N.eqb_spec ((iend a + 1) mod 2 ^ 64) (istart b)) as [T|T].
  - apply IH in H; [|constructor; assumption]. cbn [map] in *. unfold pair_of at 1 in H. cbn [istart iend] in H. destruct (map pair_of r) as [|c out]; [now apply joined_cons in H|].
    destruct (joined_head (istart a) (istart b) (iend b) _ _ _ H) as [E J]. assert (EC : c = (fst (pair_of a), snd (istart b, snd c))) by (destruct c; cbn in *; now subst).
    rewrite EC. apply jo_touch; [unfold touches, pair_of; cbn [fst snd]; now rewrite T|exact J].
  - destruct (crec bl b rest) as [t|x| |] eqn:E; cbn [rbind] in H; try discriminate. injection H as <-. cbn [map]. apply jo_apart; [unfold touches, pair_of; cbn [fst snd]; intros X; apply T; now rewrite X|].
    apply (IH b t Fr E).
Qed.
Lemma unpair l : map (fun i => Interval (fst i) (snd i)) (map pair_of l) = l.
Proof. induction l as [|[a b] l IH]; [reflexivity|]. cbn [map pair_of fst snd istart iend]. now rewrite IH. Qed.
Lemma part_exact bl p su : parse_uuid_part bl p = Ok su -> exists e, part_says p e /\ (utext (fst su), snd su) = entry_of e.
Proof.
  unfold parse_uuid_part. intros H. destruct (uuid_parse (firstn 36 p)) as [u|x| |] eqn:U; cbn [rbind] in H; try discriminate.
  destruct (mapM parse_interval (split_on 58 (skipn 37 p))) as [ivs|x| |] eqn:M; cbn [rbind] in H; try discriminate.
  destruct (uuid_set_new bl u ivs) as [us|x| |] eqn:N; cbn [rbind] in H; try discriminate. injection H as <-. cbn [fst snd].
  destruct (mapM_says _ _ M) as [S T]. unfold uuid_parse in U. change (remove_char 45 (firstn 36 p)) with (id_chars p) in U. destruct (hex_decode (id_chars p)) as [v|] eqn:V; [|discriminate].
  destruct (Nat.ltb_spec (length v) 16); [discriminate|]. injection U as <-. cbn [utext].
  unfold uuid_set_new in N.
  assert (R : exists r, us = UuidSet (Uuid (firstn 16 v) (firstn 36 p)) r /\ joined (map pair_of ivs) (map pair_of r)).
  { destruct ivs as [|a [|b rest]]; cbn [length Nat.ltb Nat.leb rbind] in N.
    - exfalso. cbn [map] in S. inversion S as [Z|]. symmetry in Z. now apply split_on_nonempty in Z.
    - injection N as <-. exists [a]. split; [reflexivity|constructor].
    - rewrite collapse_crec in N. destruct (crec bl a (b :: rest)) as [r|x| |] eqn:E; cbn [rbind] in N; try discriminate. injection N as <-. exists r. split; [reflexivity|].
      now apply (crec_joined bl). }
  destruct R as (r & -> & J). exists (firstn 36 p, (firstn 16 v, map pair_of r)). split.
  - split; [reflexivity|]. split; [rewrite firstn_length; lia|]. split; [exists (skipn 16 v); rewrite firstn_skipn; now apply hex_decode_says|].
    exists (split_on 58 (skipn 37 p)), (map pair_of ivs). split; [now apply cut_split|]. auto.
  - unfold entry_of. cbn [fst snd]. now rewrite unpair.
Qed.
(* the last entry of each key, on top of what was there before *)
Lemma parts_exact bl parts : forall acc s, NoDup (map fst acc) -> parse_parts bl parts acc = Ok s -> exists es, Forall2 part_says parts es /\ NoDup (map fst s) /\
  forall k us, In (k, us) s <-> (exists a e b, es = a ++ e :: b /\ entry_of e = (k, us) /\ ~ In k (map fst b)) \/ (In (k, us) acc /\ ~ In k (map fst es)).
Proof.
  induction parts as [|p parts IH]; intros acc s D H; cbn [parse_parts] in H.
  - injection H as <-. exists []. split; [constructor|]. split; [exact D|]. intros k us. split; [intros I; right; split; [exact I|intros []]|].
    intros [(a & e & b & E & _)|[I _]]; [destruct a; discriminate|exact I].
  - destruct (parse_uuid_part bl p) as [su|x| |] eqn:P; cbn [rbind] in H; try discriminate. destruct (part_exact bl p su P) as (e & S & E).
    injection E as EK EU. rewrite EK in H. destruct (IH _ _ (hm_put_NoDup _ _ _ D) H) as (es & F & N & K). exists (e :: es). split; [now constructor|]. split; [exact N|].
    intros k us. rewrite K, hm_put_In by exact D. cbn [map In]. split.
    + intros [(a & g & b & -> & Q1 & Q2)|[[I|[I J]] L]].
      * left. exists (e :: a), g, b. auto.
      * injection I as -> ->. left. exists [], e, es. split; [reflexivity|]. split; [|exact L]. rewrite EU. reflexivity.
      * right. split; [exact I|]. cbn [fst] in J. intros [X|X]; [congruence|tauto].
    + intros [(a & g & b & EQ & Q1 & Q2)|[I J]].
      * destruct a as [|y a]; cbn [app] in EQ; injection EQ as E1 E2.
        -- subst g b. right. unfold entry_of in Q1. injection Q1 as Q3 Q4. split; [|now rewrite <- Q3 in *]. left. rewrite EU, Q3. rewrite <- Q4, Q3. reflexivity.
        -- left. exists a, g, b. auto.
      * right. split; [right; split; [exact I|]; cbn [fst]; intros X; apply J; left; congruence|tauto].
Qed.

(* ---- MariaDB ---- *)
Lemma parse_mgtid_says p g : parse_mgtid p = Ok g <-> maria_says p (triple_of g).
Proof.
  unfold parse_mgtid, maria_says, triple_of. rewrite <- u32_pow, <- u64_pow. split.
  - intros H. destruct (split_on 45 p) as [|a [|b [|c more]]] eqn:C; try discriminate; (destruct (parse_uint u32max1 a) as [d|x| |] eqn:A; cbn [rbind] in H; try discriminate);
      (destruct (parse_uint u32max1 b) as [s|x| |] eqn:B; cbn [rbind] in H; try discriminate). destruct (parse_uint u64max1 c) as [q|x| |] eqn:Q; cbn [rbind] in H; try discriminate.
    injection H as <-. exists a, b, c, more. rewrite cut_split, !number_parse. auto.
  - intros (a & b & c & more & C & A & B & Q). apply cut_split in C. apply number_parse in A, B, Q. rewrite C, A. cbn [rbind]. rewrite B. cbn [rbind]. rewrite Q. cbn [rbind]. now destruct g.
Qed.
Lemma mparts_exact parts : forall seen acc l, parse_mgtids parts seen acc = Ok l <->
  exists gs, Forall2 maria_says parts (map triple_of gs) /\ l = acc ++ gs /\ NoDup (map mg_domain gs) /\ Forall (fun g => ~ In (mg_domain g) seen) gs.
Proof.
  induction parts as [|p parts IH]; intros seen acc l; cbn [parse_mgtids].
  - split; [intros H; injection H as <-; exists []; rewrite app_nil_r; repeat constructor|].
    intros (gs & F & -> & _). inversion F as [E|]. destruct gs; [now rewrite app_nil_r|discriminate].
  - split.
    + intros H. destruct (parse_mgtid p) as [g|x| |] eqn:P; cbn [rbind] in H; try discriminate. destruct (existsb (N.eqb (mg_domain g)) seen) eqn:X; [discriminate|].
      assert (NI : ~ In (mg_domain g) seen) by (rewrite <- existsb_In; congruence). apply IH in H. destruct H as (gs & F & -> & N & S). exists (g :: gs). cbn [map]. split; [|split; [|split]].
      * constructor; [now apply parse_mgtid_says|exact F].
      * now rewrite <- app_assoc.
      * constructor; [|exact N]. intros I. apply in_map_iff in I. destruct I as (h & E & I). rewrite Forall_forall in S. apply (S h I). left. congruence.
      * constructor; [exact NI|]. eapply Forall_impl; [|exact S]. cbn. tauto.
    + intros (gs & F & -> & N & S). destruct gs as [|g gs]; [inversion F|]. cbn [map] in *. inversion F as [|u v u' v' F1 F2]; subst. inversion N as [|u v N1 N2]; subst. inversion S as [|u v S1 S2]; subst.
      apply parse_mgtid_says in F1. rewrite F1. cbn [rbind]. destruct (existsb (N.eqb (mg_domain g)) seen) eqn:X; [apply existsb_In in X; tauto|].
      apply IH. exists gs. split; [exact F2|]. split; [now rewrite <- app_assoc|]. split; [exact N2|]. apply Forall_forall. intros h Hh [E|I]; [apply N1; apply in_map_iff; eauto|].
      rewrite Forall_forall in S2. now apply (S2 h Hh).
Qed.
