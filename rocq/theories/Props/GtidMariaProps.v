(* Claimed properties of MariaDB GTID lists (C07 second half, C10, C11). *)
From Coq Require Import Strings.String.
From Verif Require Import Base.Tac Base.Bytes Base.Text Base.Res Base.Str Model.GtidMaria Spec.GtidMariaSpec
  Proofs.GtidMariaProofs.
Local Open Scope N_scope.

(* ---- C10 ---- *)
Theorem C10_last_write_wins : forall l h, NoDup (map mg_domain l) ->
  NoDup (map mg_domain (madd_all l h)) /\
  (forall d, domain_gtid (madd_all l h) d =
     match domain_gtid (rev h) d with Some g => Some g | None => domain_gtid l d end) /\
  map mg_domain (madd_all l h) = map mg_domain l ++ new_domains (map mg_domain l) (map mg_domain h).
Proof. intros l h. exact (madd_all_spec h l). Qed.
Print Assumptions C10_last_write_wins.
Theorem C10_flag_is_new_domain : forall l g,
  fst (gtid_list_add l g) = true <-> ~ In (mg_domain g) (map mg_domain l).
Proof.
  intros l g. induction l as [|x l IH]; cbn [gtid_list_add map In]; [intuition|].
  destruct (N.eqb_spec (mg_domain x) (mg_domain g)) as [E|E]; cbn [fst]; [intuition discriminate|].
  destruct (gtid_list_add l g) as [b r]. cbn [fst] in *. tauto.
Qed.
Print Assumptions C10_flag_is_new_domain.
Example C10_example : NoDup (map mg_domain [MGtid 0 1 100; MGtid 4 1 7]) /\
  madd_all [MGtid 0 1 100; MGtid 4 1 7] [MGtid 9 2 1; MGtid 0 3 2; MGtid 9 2 5] = [MGtid 0 3 2; MGtid 4 1 7; MGtid 9 2 5].
Proof. split; [|vm_compute; reflexivity]. repeat constructor; cbn; intuition discriminate. Qed.

(* ---- C11 ---- *)
Theorem C11_roundtrip : forall l, Forall mgtid_ok l -> NoDup (map mg_domain l) ->
  gtid_list_parse (gtid_list_text l) = Ok l.
Proof. exact gtid_list_roundtrip. Qed.
Print Assumptions C11_roundtrip.
Theorem C11_repeated_domain_rejected : forall t (ps : list (text * mgtid * text)),
  Forall (fun p => all_ws (fst (fst p)) /\ mgtid_ok (snd (fst p)) /\ all_ws (snd p)) ps ->
  remove_char 10 t = join [44] (map (fun p => fst (fst p) ++ mgtid_text (snd (fst p)) ++ snd p) ps) ->
  ~ NoDup (map (fun p => mg_domain (snd (fst p))) ps) ->
  gtid_list_parse t = Err (EString dup_domain).
Proof.
  intros t ps H1 H2 H3. rewrite (gtid_list_parse_written t ps); auto.
  - destruct (all_new _ _) eqn:E; [|reflexivity]. apply all_new_spec in E. tauto.
  - intros ->. apply H3. constructor.
Qed.
Print Assumptions C11_repeated_domain_rejected.
Theorem C11_parse_gives_unique_domains : forall t l, gtid_list_parse t = Ok l -> NoDup (map mg_domain l).
Proof. intros t l H. now apply (gtid_list_parse_unique t). Qed.
Print Assumptions C11_parse_gives_unique_domains.
Example C11_example : Forall mgtid_ok [MGtid 0 1 18446744073709551615; MGtid 4294967295 1 7] /\
  gtid_list_text [MGtid 0 1 18446744073709551615; MGtid 4294967295 1 7] = tx "0-1-18446744073709551615,4294967295-1-7".
Proof.
  split; [|vm_compute; reflexivity].
  repeat constructor; cbn; unfold u32max1, u64max1; lia.
Qed.
Example C11_example_dup : gtid_list_parse (tx "1-2-3, 4-5-6 , 1-9-9") = Err (EString dup_domain).
Proof. vm_compute. reflexivity. Qed.

(* ---- C07 (MariaDB half) ---- *)
(* full statement: forall t, returns (gtid_list_parse t); false, see below *)
Theorem C07_mariadb_parse_returns_partial : forall t,
  Forall (fun p => (3 <= length (split_on 45 (trim p)))%nat) (split_on 44 (remove_char 10 t)) ->
  returns (gtid_list_parse t).
Proof. exact gtid_list_parse_returns. Qed.
Print Assumptions C07_mariadb_parse_returns_partial.
Example C07_maria_example :
  Forall (fun p => (3 <= length (split_on 45 (trim p)))%nat) (split_on 44 (remove_char 10 (tx "1-x-3,--,0-1-2-3"))).
Proof. vm_compute. repeat constructor. Qed.
Theorem C07_mariadb_parse_refuted :
  gtid_list_parse (tx "0-1") = Panic /\ gtid_list_parse (tx "7") = Panic.
Proof. vm_compute. split; reflexivity. Qed.
Print Assumptions C07_mariadb_parse_refuted.
