(* What MariaDB GTID positions mean: one GTID per replication domain, the last one added. *)
From Verif Require Import Base.Tac Base.Bytes Base.Text Base.Res Base.Str Model.GtidMaria.
Local Open Scope N_scope.

Definition has_domain (l : list mgtid) (d : N) : bool := existsb (fun g => d =? mg_domain g) l.
(* the gtid listed for a domain (first match) *)
Definition domain_gtid (l : list mgtid) (d : N) : option mgtid := find (fun g => mg_domain g =? d) l.

(* values of the Rust field types *)
Definition mgtid_ok (g : mgtid) : Prop := mg_domain g < u32max1 /\ mg_server g < u32max1 /\ mg_seq g < u64max1.

(* a history of add_gtid calls *)
Fixpoint madd_all (l : gtid_list) (h : list mgtid) : gtid_list :=
  match h with [] => l | g :: r => madd_all (snd (gtid_list_add l g)) r end.

Definition mem_N (d : N) (l : list N) : bool := existsb (N.eqb d) l.
(* the domains of h that are not in [seen], in order of first appearance *)
Fixpoint new_domains (seen h : list N) : list N :=
  match h with
  | [] => []
  | d :: r => if mem_N d seen then new_domains seen r else d :: new_domains (seen ++ [d]) r
  end.
(* no repetition, nothing already seen *)
Fixpoint all_new (seen ds : list N) : bool :=
  match ds with
  | [] => true
  | d :: r => if mem_N d seen then false else all_new (d :: seen) r
  end.
