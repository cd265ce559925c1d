From Verif Require Import Base.Tac Base.Bytes Base.Text Base.Res Base.Str Model.GtidMaria Spec.GtidMariaSpec.
Local Open Scope N_scope.

Lemma gtid_list_add_domains l g :
  map mg_domain (snd (gtid_list_add l g)) = map mg_domain l ++ (if has_domain l (mg_domain g) then [] else [mg_domain g]).
Proof.
  induction l as [|x l IH]; cbn [gtid_list_add has_domain existsb map snd app]; [reflexivity|].
  rewrite (N.eqb_sym (mg_domain g) (mg_domain x)). destruct (N.eqb_spec (mg_domain x) (mg_domain g)) as [E|E]; cbn [orb].
  - cbn [snd map]. now rewrite app_nil_r, E.
  - destruct (gtid_list_add l g) as [b r] eqn:Er. cbn [snd map] in *. rewrite IH. reflexivity.
Qed.

Lemma gtid_list_add_flag l g : fst (gtid_list_add l g) = negb (has_domain l (mg_domain g)).
Proof.
  induction l as [|x l IH]; cbn [gtid_list_add has_domain existsb fst]; [reflexivity|].
  rewrite (N.eqb_sym (mg_domain g) (mg_domain x)). destruct (N.eqb_spec (mg_domain x) (mg_domain g)) as [E|E]; cbn [orb negb]; [reflexivity|].
  destruct (gtid_list_add l g) as [b r] eqn:Er. exact IH.
Qed.

Lemma gtid_list_add_lookup l g d :
  domain_gtid (snd (gtid_list_add l g)) d = if mg_domain g =? d then Some g else domain_gtid l d.
Proof.
  induction l as [|x l IH]; cbn [gtid_list_add snd].
  - unfold domain_gtid. cbn [find]. reflexivity.
  - destruct (N.eqb_spec (mg_domain x) (mg_domain g)) as [E|E].
    + unfold domain_gtid. cbn [find snd]. rewrite E. destruct (mg_domain g =? d); reflexivity.
    + destruct (gtid_list_add l g) as [b r] eqn:Er. cbn [snd] in *. unfold domain_gtid in *. cbn [find].
      rewrite IH. destruct (N.eqb_spec (mg_domain x) d), (N.eqb_spec (mg_domain g) d); try reflexivity. congruence.
Qed.

Lemma has_domain_In l d : has_domain l d = true <-> In d (map mg_domain l).
Proof.
  unfold has_domain. rewrite existsb_exists, in_map_iff. split.
  - intros (x & Hx & E). exists x. apply N.eqb_eq in E. auto.
  - intros (x & E & Hx). exists x. split; auto. apply N.eqb_eq. auto.
Qed.

Lemma gtid_list_add_unique l g : NoDup (map mg_domain l) -> NoDup (map mg_domain (snd (gtid_list_add l g))).
Proof.
  intros H. rewrite gtid_list_add_domains. destruct (has_domain l (mg_domain g)) eqn:E; [now rewrite app_nil_r|].
  assert (~ In (mg_domain g) (map mg_domain l)) by (rewrite <- has_domain_In; congruence).
  apply NoDup_app_intro; auto.
  - repeat constructor; auto.
  - intros x Hx [<-|[]]. auto.
Qed.

Theorem madd_all_spec h : forall l, NoDup (map mg_domain l) ->
  NoDup (map mg_domain (madd_all l h)) /\
  (forall d, domain_gtid (madd_all l h) d = match domain_gtid (rev h) d with Some g => Some g | None => domain_gtid l d end) /\
  map mg_domain (madd_all l h) = map mg_domain l ++ new_domains (map mg_domain l) (map mg_domain h).
Proof.
  induction h as [|g h IH]; intros l Hl; cbn [madd_all rev map new_domains].
  - repeat split; auto. now rewrite app_nil_r.
  - destruct (IH _ (gtid_list_add_unique l g Hl)) as (H1 & H2 & H3).
    split; [exact H1|]. split.
    + intros d. rewrite H2, gtid_list_add_lookup. unfold domain_gtid.
      assert (F : forall a b, find (fun x => mg_domain x =? d) (a ++ b) =
                 match find (fun x => mg_domain x =? d) a with Some x => Some x | None => find (fun x => mg_domain x =? d) b end).
      { clear. induction a as [|x a IHa]; intros b; cbn [app find]; [reflexivity|]. destruct (mg_domain x =? d); auto. }
      rewrite F. destruct (find (fun x => mg_domain x =? d) (rev h)); [reflexivity|]. cbn [find].
      destruct (mg_domain g =? d); reflexivity.
    + rewrite H3, gtid_list_add_domains. unfold mem_N.
      destruct (has_domain l (mg_domain g)) eqn:E.
      * apply has_domain_In in E.
        replace (existsb (N.eqb (mg_domain g)) (map mg_domain l)) with true.
        2:{ symmetry. apply existsb_exists. exists (mg_domain g). split; auto. apply N.eqb_refl. }
        now rewrite app_nil_r.
      * replace (existsb (N.eqb (mg_domain g)) (map mg_domain l)) with false.
        2:{ symmetry. apply not_true_iff_false. rewrite existsb_exists. intros (x & Hx & Ex). apply N.eqb_eq in Ex. subst x.
            apply has_domain_In in Hx. congruence. }
        rewrite <- app_assoc. reflexivity.
Qed.

(* ---------- text ---------- *)
Lemma mgtid_text_chars g c : In c (mgtid_text g) -> 48 <= c <= 57 \/ c = 45.
Proof.
  unfold mgtid_text. rewrite !in_app_iff. intros H.
  destruct H as [H|[H|[H|[H|H]]]]; try (apply dec_text_In in H; auto; fail); cbn in H; destruct H as [<-|[]]; auto.
Qed.

Lemma parse_mgtid_text g : mgtid_ok g -> parse_mgtid (mgtid_text g) = Ok g.
Proof.
  intros (H1 & H2 & H3). unfold parse_mgtid, mgtid_text. cbn [app].
  assert (D : forall n, ~ In 45 (dec_text n)) by (intros n H; apply dec_text_In in H; lia).
  rewrite split_on_app by apply D. rewrite split_on_app by apply D. rewrite split_on_clean by apply D.
  rewrite parse_dec_text by exact H1. cbn [rbind]. rewrite parse_dec_text by exact H2. cbn [rbind].
  rewrite parse_dec_text by exact H3. cbn [rbind]. now destruct g.
Qed.

Lemma parse_mgtids_spec l : forall seen acc, Forall mgtid_ok l ->
  NoDup seen ->
  parse_mgtids (map mgtid_text l) seen acc =
  if all_new seen (map mg_domain l) then Ok (acc ++ l) else Err (EString dup_domain).
Proof.
  induction l as [|g l IH]; intros seen acc Hl Hs; cbn [map parse_mgtids all_new].
  - now rewrite app_nil_r.
  - inv Hl. rewrite parse_mgtid_text by assumption. cbn [rbind]. unfold mem_N.
    destruct (existsb (N.eqb (mg_domain g)) seen) eqn:E; [reflexivity|].
    rewrite IH; auto.
    + rewrite <- app_assoc. reflexivity.
    + constructor; auto. intros Hin. assert (existsb (N.eqb (mg_domain g)) seen = true); [|congruence].
      apply existsb_exists. exists (mg_domain g). split; auto. apply N.eqb_refl.
Qed.

Lemma all_new_spec ds : forall seen, all_new seen ds = true <-> NoDup ds /\ (forall d, In d ds -> ~ In d seen).
Proof.
  induction ds as [|d ds IH]; intros seen; cbn [all_new].
  - split; [split; [constructor|intros d []]|reflexivity].
  - unfold mem_N. destruct (existsb (N.eqb d) seen) eqn:E.
    + split; [discriminate|]. intros [_ H]. exfalso. apply existsb_exists in E. destruct E as (x & Hx & Ex).
      apply N.eqb_eq in Ex. subst x. apply (H d); cbn; auto.
    + assert (Hd : ~ In d seen).
      { intros Hin. assert (existsb (N.eqb d) seen = true); [|congruence]. apply existsb_exists. exists d. split; auto. apply N.eqb_refl. }
      rewrite IH. split.
      * intros [H1 H2]. split.
        -- constructor; auto. intros Hin. apply (H2 d Hin). now left.
        -- intros x [<-|Hx]; auto. intros Hs. apply (H2 x Hx). now right.
      * intros [H1 H2]. inv H1. split; auto. intros x Hx [<-|Hs]; [auto|]. apply (H2 x); cbn; auto.
Qed.

Theorem gtid_list_parse_written t (ps : list (text * mgtid * text)) :
  ps <> [] -> Forall (fun p => all_ws (fst (fst p)) /\ mgtid_ok (snd (fst p)) /\ all_ws (snd p)) ps ->
  remove_char 10 t = join [44] (map (fun p => fst (fst p) ++ mgtid_text (snd (fst p)) ++ snd p) ps) ->
  gtid_list_parse t =
    if all_new [] (map (fun p => mg_domain (snd (fst p))) ps) then Ok (map (fun p => snd (fst p)) ps)
    else Err (EString dup_domain).
Proof.
  intros Hne Hok Ht. unfold gtid_list_parse.
  assert (Htne : forall g, mgtid_text g <> []).
  { intros g E. unfold mgtid_text in E. apply app_eq_nil in E. destruct E as [E _]. now apply dec_text_nonempty in E. }
  destruct t as [|c t'].
  { exfalso. cbn [remove_char filter] in Ht. destruct ps as [|p ps]; [congruence|]. cbn [map join] in Ht.
    assert (fst (fst p) ++ mgtid_text (snd (fst p)) ++ snd p <> []) as Hx.
    { intros E. apply app_eq_nil in E. destruct E as [_ E]. apply app_eq_nil in E. destruct E as [E _]. now apply Htne in E. }
    match type of Ht with context [map ?f ps] => destruct (map f ps) end; [now symmetry in Ht|].
    symmetry in Ht. apply app_eq_nil in Ht. tauto. }
  rewrite Ht, split_join.
  - rewrite map_map. rewrite (map_ext_in _ (fun p => mgtid_text (snd (fst p)))).
    + rewrite <- (map_map (fun p : text * mgtid * text => snd (fst p)) mgtid_text).
      rewrite parse_mgtids_spec.
      * rewrite map_map. reflexivity.
      * apply Forall_map. eapply Forall_impl; [|exact Hok]. cbn. tauto.
      * constructor.
    + intros p Hp. rewrite Forall_forall in Hok. destruct (Hok p Hp) as (A & B & C). apply trim_pad; auto.
      apply Forall_forall. intros x Hx. apply mgtid_text_chars in Hx. unfold is_ws. lia.
  - destruct ps; [congruence|discriminate].
  - apply Forall_forall. intros x Hx. apply in_map_iff in Hx. destruct Hx as (p & <- & Hp).
    rewrite Forall_forall in Hok. destruct (Hok p Hp) as (A & B & C).
    rewrite !in_app_iff. unfold all_ws in *. rewrite Forall_forall in A, C.
    intros [H|[H|H]]; [apply A in H; discriminate|apply mgtid_text_chars in H; lia|apply C in H; discriminate].
Qed.

Theorem gtid_list_roundtrip l : Forall mgtid_ok l -> NoDup (map mg_domain l) -> gtid_list_parse (gtid_list_text l) = Ok l.
Proof.
  intros Hok Hnd. destruct l as [|g l0] eqn:El; [reflexivity|]. rewrite <- El in *.
  rewrite (gtid_list_parse_written _ (map (fun g => ([], g, [])) l)).
  - rewrite !map_map. cbn [fst snd]. rewrite map_id.
    replace (all_new [] (map (fun x => mg_domain x) l)) with true; [reflexivity|].
    symmetry. apply all_new_spec. split; [exact Hnd|]. intros d _ [].
  - rewrite El. discriminate.
  - apply Forall_map. cbn [fst snd]. eapply Forall_impl; [|exact Hok]. intros a Ha. repeat split; try constructor; apply Ha.
  - unfold gtid_list_text. rewrite map_map. cbn [fst snd app].
    rewrite (map_ext (fun x => mgtid_text x ++ []) mgtid_text) by (intros; apply app_nil_r).
    apply remove_char_clean.
    assert (Hj : forall ts, In 10 (join [44] ts) -> exists t, In t ts /\ In 10 t).
    { clear. induction ts as [|t ts IH]; cbn [join]; [intros []|]. destruct ts as [|t2 ts].
      - intros H. exists t. cbn [In]. auto.
      - intros H. rewrite !in_app_iff in H. destruct H as [H|[H|H]]; [exists t; cbn [In]; auto|cbn in H; destruct H; [lia|tauto]|].
        apply IH in H. destruct H as (x & Hx & H). exists x. cbn [In] in *. auto. }
    intros Hin. apply Hj in Hin. destruct Hin as (t & Ht & Hin). apply in_map_iff in Ht. destruct Ht as (x & <- & _).
    apply mgtid_text_chars in Hin. lia.
Qed.

Lemma parse_mgtid_ok t g : parse_mgtid t = Ok g -> mgtid_ok g.
Proof.
  unfold parse_mgtid. destruct (split_on 45 t) as [|a [|b [|c r]]]; try discriminate; intros H.
  - destruct (parse_uint u32max1 a); discriminate.
  - destruct (parse_uint u32max1 a); cbn [rbind] in H; try discriminate. destruct (parse_uint u32max1 b); discriminate.
  - destruct (parse_uint u32max1 a) eqn:E1; cbn [rbind] in H; try discriminate.
    destruct (parse_uint u32max1 b) eqn:E2; cbn [rbind] in H; try discriminate.
    destruct (parse_uint u64max1 c) eqn:E3; cbn [rbind] in H; try discriminate. inv H.
    apply parse_uint_lt in E1, E2, E3. repeat split; assumption.
Qed.

Theorem gtid_list_parse_unique t l : gtid_list_parse t = Ok l -> NoDup (map mg_domain l) /\ Forall mgtid_ok l.
Proof.
  unfold gtid_list_parse. destruct t as [|c t]; [intros H; inv H; split; constructor|].
  generalize (map trim (split_on 44 (remove_char 10 (c :: t)))) as parts. clear c t. intros parts.
  assert (G : forall parts seen acc l, parse_mgtids parts seen acc = Ok l ->
     (forall d, In d seen <-> In d (map mg_domain acc)) -> NoDup (map mg_domain acc) -> Forall mgtid_ok acc ->
     NoDup (map mg_domain l) /\ Forall mgtid_ok l).
  { clear. induction parts as [|p parts IH]; intros seen acc l H Hs Hnd Hok; cbn [parse_mgtids] in H; [inv H; auto|].
    destruct (parse_mgtid p) as [g|e| |] eqn:E; cbn [rbind] in H; try discriminate.
    destruct (existsb (N.eqb (mg_domain g)) seen) eqn:Es; [discriminate|].
    assert (Hnin : ~ In (mg_domain g) (map mg_domain acc)).
    { rewrite <- Hs. intros Hin. assert (existsb (N.eqb (mg_domain g)) seen = true); [|congruence].
      apply existsb_exists. exists (mg_domain g). split; auto. apply N.eqb_refl. }
    eapply IH; [exact H| | |].
    - intros d. rewrite map_app, in_app_iff. cbn [map In]. rewrite Hs. tauto.
    - rewrite map_app. cbn [map]. apply NoDup_app_intro; auto; [repeat constructor; auto|]. intros x Hx [<-|[]]. auto.
    - apply Forall_app. split; auto. constructor; [|constructor]. now apply parse_mgtid_ok in E. }
  intros H. eapply G; [exact H|intros d; cbn [map In]; tauto|constructor|constructor].
Qed.

(* panics exactly on a missing component *)
Theorem gtid_list_parse_returns t :
  Forall (fun p => (3 <= length (split_on 45 (trim p)))%nat) (split_on 44 (remove_char 10 t)) -> returns (gtid_list_parse t).
Proof.
  intros H. unfold gtid_list_parse. destruct t as [|c t]; [exact I|].
  assert (G : forall parts seen acc, Forall (fun p => (3 <= length (split_on 45 p))%nat) parts -> returns (parse_mgtids parts seen acc)).
  { clear. induction parts as [|p parts IH]; intros seen acc Hp; cbn [parse_mgtids]; [exact I|]. inv Hp.
    apply returns_bind.
    - unfold parse_mgtid. destruct (split_on 45 p) as [|a [|b [|d r]]]; cbn [length] in *; try lia.
      repeat (apply returns_bind; [apply parse_uint_returns|intros ? _]). exact I.
    - intros g _. destruct (existsb _ _); [exact I|]. now apply IH. }
  apply G, Forall_map, H.
Qed.
