(* Claimed: exactly which texts the two GTID parsers accept, and on exactly which they panic (C07). *)
From Coq Require Import Strings.String.
From Verif Require Import Base.Tac Base.Bytes Base.Text Base.Res Base.Str Model.Gtid Model.GtidMaria Spec.GtidSpec
  Spec.GtidMariaSpec Spec.GtidTextSpec Spec.GtidExactSpec Proofs.GtidProofs Proofs.GtidSetProofs Proofs.GtidMariaProofs Proofs.GtidTextProofs Proofs.GtidExactProofs.
Local Open Scope N_scope.

(* MariaDB.  A panic happens exactly when a part stops after one or two numbers and everything before it is well formed
   with pairwise different domains; a list is returned exactly when all parts are well formed with different domains. *)
Theorem C07_mariadb_panics_iff : forall t,
  gtid_list_parse t = Panic <->
  t <> [] /\ exists parts before p after ds, cut 44 (remove_char 10 t) parts /\ map trim parts = before ++ p :: after /\
    Forall2 maria_part before ds /\ NoDup ds /\ maria_short p.
Proof.
  intros t. unfold gtid_list_parse. destruct t as [|c t]; [split; [discriminate|intros [X _]; congruence]|].
  remember (c :: t) as tt eqn:E. rewrite parse_mgtids_panic by constructor. split.
  - intros (before & p & after & ds & M & F & N & S). rewrite NoDup_rev_nil in N. split; [congruence|].
    exists (split_on 44 (remove_char 10 tt)), before, p, after, ds. split; [now apply cut_split|]. auto 10.
  - intros (_ & parts & before & p & after & ds & C & M & F & N & S). apply cut_split in C. subst parts.
    exists before, p, after, ds. rewrite NoDup_rev_nil. auto.
Qed.
Print Assumptions C07_mariadb_panics_iff.
Theorem C07_mariadb_accepts_iff : forall t,
  (exists l, gtid_list_parse t = Ok l) <->
  t = [] \/ exists parts ds, cut 44 (remove_char 10 t) parts /\ Forall2 maria_part (map trim parts) ds /\ NoDup ds.
Proof.
  intros t. unfold gtid_list_parse. destruct t as [|c t]; [split; [now left|eauto]|].
  remember (c :: t) as tt eqn:E. rewrite parse_mgtids_ok by constructor. split.
  - intros (ds & F & N). rewrite NoDup_rev_nil in N. right. exists (split_on 44 (remove_char 10 tt)), ds. split; [now apply cut_split|]. auto 10.
  - intros [X|(parts & ds & C & F & N)]; [congruence|]. apply cut_split in C. subst parts. exists ds. rewrite NoDup_rev_nil. auto.
Qed.
Print Assumptions C07_mariadb_accepts_iff.
Theorem C07_mariadb_stops : forall t, gtid_list_parse t <> Diverge.
Proof. intros [|c t]; [discriminate|]. apply parse_mgtids_never_diverges. Qed.
Print Assumptions C07_mariadb_stops.

(* MySQL.  A panic happens exactly when, after well-formed parts, a part's first 36 characters hold fewer than 32 hex
   digits (an even number of them, nothing else but hyphens), or, in a debug build, a well-formed part lists an interval
   ending at 2^64 - 1 anywhere but last. *)
Definition fine (bl : build) (p : text) : Prop := exists his, mysql_part p his /\ (bl = Debug -> ~ top_inside his).
Theorem C07_mysql_panics_iff : forall bl t,
  gtid_set_parse bl t = Panic <->
  t <> [] /\ exists parts before p after, cut 44 (remove_char 10 t) parts /\ map trim parts = before ++ p :: after /\
    Forall (fine bl) before /\ (id_short p \/ bl = Debug /\ exists his, mysql_part p his /\ top_inside his).
Proof.
  intros bl t. unfold gtid_set_parse. destruct t as [|c t]; [split; [discriminate|intros [X _]; congruence]|].
  remember (c :: t) as tt eqn:E. rewrite parse_parts_panic. split.
  - intros (before & p & after & M & F & P). split; [congruence|].
    exists (split_on 44 (remove_char 10 tt)), before, p, after. split; [now apply cut_split|]. auto 10.
  - intros (_ & parts & before & p & after & C & M & F & P). apply cut_split in C. subst parts. exists before, p, after. auto.
Qed.
Print Assumptions C07_mysql_panics_iff.
Theorem C07_mysql_accepts_iff : forall bl t,
  (exists s, gtid_set_parse bl t = Ok s) <->
  t = [] \/ exists parts, cut 44 (remove_char 10 t) parts /\ Forall (fine bl) (map trim parts).
Proof.
  intros bl t. unfold gtid_set_parse. destruct t as [|c t]; [split; [now left|eauto]|].
  remember (c :: t) as tt eqn:E. rewrite parse_parts_ok_iff. split.
  - intros F. right. exists (split_on 44 (remove_char 10 tt)). split; [now apply cut_split|]. auto 10.
  - intros [X|(parts & C & F)]; [congruence|]. apply cut_split in C. now subst parts.
Qed.
Print Assumptions C07_mysql_accepts_iff.
Theorem C07_mysql_stops : forall bl t, gtid_set_parse bl t <> Diverge.
Proof. intros bl [|c t]; [discriminate|]. apply parse_parts_never_diverges. Qed.
Print Assumptions C07_mysql_stops.

(* both sides are met: "1-2-3, 7" panics in its second part, "3fe0…:1-5:7" is accepted, and in a debug build
   "…:1-18446744073709551615:7" is a well-formed part with the largest number inside *)
Example C07_iff_example :
  (exists parts before p after ds, cut 44 (remove_char 10 (tx "1-2-3, 7")) parts /\ map trim parts = before ++ p :: after /\
    Forall2 maria_part before ds /\ NoDup ds /\ maria_short p) /\
  (exists ds, Forall2 maria_part (map trim [tx "1-+2-003"; tx " 4-5-6-x"]) ds /\ NoDup ds) /\
  fine Debug (tx "24bc7850-2c16-11e6-a073-0242ac110001:1-5:7") /\
  (exists his, mysql_part (tx "24bc7850-2c16-11e6-a073-0242ac110001:1-18446744073709551615:7") his /\ top_inside his) /\
  id_short (tx "24bc7850-2C16").
Proof.
  split; [apply C07_mariadb_panics_iff; vm_compute; reflexivity|]. split.
  { assert (H : exists l, gtid_list_parse (tx "1-+2-003, 4-5-6-x") = Ok l) by (eexists; vm_compute; reflexivity).
    apply C07_mariadb_accepts_iff in H. destruct H as [H|(parts & ds & C & F & N)]; [discriminate|].
    apply cut_split in C. assert (parts = [tx "1-+2-003"; tx " 4-5-6-x"]) as -> by (rewrite <- C; vm_compute; reflexivity). eauto. }
  split.
  { assert (H : exists s, gtid_set_parse Debug (tx "24bc7850-2c16-11e6-a073-0242ac110001:1-5:7") = Ok s) by (eexists; vm_compute; reflexivity).
    apply C07_mysql_accepts_iff in H. destruct H as [H|(parts & C & F)]; [discriminate|].
    apply cut_split in C. assert (parts = [tx "24bc7850-2c16-11e6-a073-0242ac110001:1-5:7"]) as -> by (rewrite <- C; vm_compute; reflexivity).
    inv F. exact H1. }
  split.
  { assert (H : gtid_set_parse Debug (tx "24bc7850-2c16-11e6-a073-0242ac110001:1-18446744073709551615:7") = Panic) by (vm_compute; reflexivity).
    apply C07_mysql_panics_iff in H. destruct H as (_ & parts & before & p & after & C & M & F & P).
    apply cut_split in C. assert (parts = [tx "24bc7850-2c16-11e6-a073-0242ac110001:1-18446744073709551615:7"]) as E by (rewrite <- C; vm_compute; reflexivity).
    rewrite E in M. destruct before as [|b [|? ?]]; [|discriminate..]. cbn [app map] in M. inversion M as [[M1 M2]]. rewrite <- M1 in P.
    assert (K : trim (tx "24bc7850-2c16-11e6-a073-0242ac110001:1-18446744073709551615:7") = tx "24bc7850-2c16-11e6-a073-0242ac110001:1-18446744073709551615:7") by (vm_compute; reflexivity).
    rewrite K in P. destruct P as [P|[_ P]]; [|exact P]. exfalso. destruct P as (_ & _ & P).
    assert (L : length (id_chars (tx "24bc7850-2c16-11e6-a073-0242ac110001:1-18446744073709551615:7")) = 32%nat) by (vm_compute; reflexivity).
    rewrite L in P. lia. }
  assert (E : id_chars (tx "24bc7850-2C16") = [50; 52; 98; 99; 55; 56; 53; 48; 50; 67; 49; 54]) by (vm_compute; reflexivity).
  unfold id_short. rewrite E. split; [|split].
  - repeat apply Forall_cons; try apply Forall_nil; unfold hex_digit; lia.
  - exists 6%nat. reflexivity.
  - cbn [length]. lia.
Qed.

(* ---- C06, C11: what comes out of every text that is accepted ---- *)
(* reversed intervals and repeated servers included: of the parts with one spelling of a server id the last, with the
   intervals it lists, joined where one begins right behind the one before it *)
Theorem C06_any_text : forall bl t s, gtid_set_parse bl t = Ok s ->
  t = [] /\ s = [] \/
  exists parts es, cut 44 (remove_char 10 t) parts /\ Forall2 part_says (map trim parts) es /\ NoDup (map fst s) /\
    forall k us, In (k, us) s <-> exists a e b, es = a ++ e :: b /\ entry_of e = (k, us) /\ ~ In k (map fst b).
Proof.
  intros bl t s H. unfold gtid_set_parse in H. destruct t as [|c t]; [left; injection H as <-; auto|right]. remember (c :: t) as tt eqn:E. clear E.
  destruct (parts_exact bl _ [] s (NoDup_nil _) H) as (es & F & N & K). exists (split_on 44 (remove_char 10 tt)), es. split; [now apply cut_split|]. split; [exact F|]. split; [exact N|].
  intros k us. rewrite K. split; [intros [X|[[] _]]; exact X|auto].
Qed.
Print Assumptions C06_any_text.
(* the transactions in the set, hence *)
Corollary C06_any_text_has : forall bl t s, gtid_set_parse bl t = Ok s -> t <> [] ->
  exists parts es, cut 44 (remove_char 10 t) parts /\ Forall2 part_says (map trim parts) es /\
    forall d n, set_has s d n <-> exists a k ivs b lo hi, es = a ++ (k, (d, ivs)) :: b /\ ~ In k (map fst b) /\ In (lo, hi) ivs /\ lo <= n <= hi.
Proof.
  intros bl t s H T. destruct (C06_any_text bl t s H) as [[X _]|(parts & es & C & F & N & K)]; [congruence|]. exists parts, es. split; [exact C|]. split; [exact F|].
  intros d n. unfold set_has, ivs_has, iv_has. split.
  - intros (k & us & I & U & i & V & L). apply K in I. destruct I as (a & [k' [d' ivs]] & b & E & Q & M). unfold entry_of in Q. cbn [fst snd] in Q. injection Q as -> <-.
    cbn [us_source us_ivs udata] in *. subst d'. apply in_map_iff in V. destruct V as ([lo hi] & <- & V). exists a, k, ivs, b, lo, hi. cbn [fst snd istart iend] in *. auto.
  - intros (a & k & ivs & b & lo & hi & E & M & V & L). exists k, (snd (entry_of (k, (d, ivs)))). split; [apply K; exists a, (k, (d, ivs)), b; auto|]. cbn [entry_of fst snd us_source us_ivs udata].
    split; [reflexivity|]. exists (Interval lo hi). split; [apply in_map_iff; exists (lo, hi); auto|exact L].
Qed.
Print Assumptions C06_any_text_has.
(* "U:1-3:4-2": one interval from 1 to 2 *)
Example C06_any_text_example : gtid_set_parse Debug (tx "24bc7850-2c16-11e6-a073-0242ac110001:7, 24bc7850-2c16-11e6-a073-0242ac110001:1-3:4-2:9") =
  Ok [(tx "24bc7850-2c16-11e6-a073-0242ac110001", UuidSet (Uuid (map n2b [36; 188; 120; 80; 44; 22; 17; 230; 160; 115; 2; 66; 172; 17; 0; 1]) (tx "24bc7850-2c16-11e6-a073-0242ac110001")) [Interval 1 2; Interval 9 9])] /\
  joined [(1, 3); (4, 2); (9, 9)] [(1, 2); (9, 9)].
Proof.
  split; [vm_compute; reflexivity|]. change (1, 2) with (fst (1, 3), snd (4, 2)). apply jo_touch; [reflexivity|]. apply jo_apart; [unfold touches; vm_compute; discriminate|]. constructor.
Qed.
(* MariaDB: exactly the parts, in their order; accepted exactly when all are well formed and their domains differ *)
Theorem C11_any_text : forall t l, gtid_list_parse t = Ok l <->
  t = [] /\ l = [] \/
  t <> [] /\ exists parts, cut 44 (remove_char 10 t) parts /\ Forall2 maria_says (map trim parts) (map triple_of l) /\ NoDup (map mg_domain l).
Proof.
  intros t l. unfold gtid_list_parse. destruct t as [|c t].
  - split; [intros H; injection H as <-; auto|]. intros [[_ ->]|[X _]]; [reflexivity|congruence].
  - remember (c :: t) as tt eqn:E. rewrite mparts_exact. split.
    + intros (gs & F & -> & N & _). right. split; [congruence|]. exists (split_on 44 (remove_char 10 tt)). split; [now apply cut_split|]. auto.
    + intros [[X _]|(_ & parts & C & F & N)]; [congruence|]. apply cut_split in C. subst parts. exists l. split; [exact F|]. split; [reflexivity|]. split; [exact N|].
      apply Forall_forall. intros g _ [].
Qed.
Print Assumptions C11_any_text.
Example C11_any_text_example : gtid_list_parse (tx "0-+1-007, 3-2-5-9") = Ok [MGtid 0 1 7; MGtid 3 2 5].
Proof. vm_compute. reflexivity. Qed.
