(* GTID mode: a program that is stopped and started again. The position is kept as a text in between; the client is a new one. *)
From Coq Require Import Permutation.
From Verif Require Import Base.Tac Base.Bytes Base.Text Base.Res Model.Gtid Model.GtidMaria Model.Client Model.Session Spec.ClientSpec Spec.PipelineSpec Spec.MariaSessionSpec Spec.FailoverSpec.
Local Open Scope N_scope.

(* server ids written with 36 characters, as in every set read from a text *)
Definition keys36 (s : gtid_set) : Prop := Forall (fun e : text * uuid_set => length (fst e) = 36%nat) s.

(* the runs of the program, each with its stays at servers; between two runs the set is written as text (the entries in the order in
   which the hash map hands them out) and read back *)
Inductive lives (bl : build) : client -> list (list stay) -> client -> Prop :=
| li_last c ys c2 : roams bl c ys c2 -> lives bl c [ys] c2
| li_again c ys c1 s order s' zs c2 : roams bl c ys c1 -> o_set (c_opts c1) = Some s -> Permutation order s ->
    gtid_set_parse bl (gtid_set_text order) = Ok s' -> lives bl (client_new (from_mysql_gtid s')) zs c2 -> lives bl c (ys :: zs) c2.
(* MariaDB *)
Inductive mlives (bl : build) : client -> list (list mstay_at) -> client -> Prop :=
| mli_last c ys c2 : mroams bl c ys c2 -> mlives bl c [ys] c2
| mli_again c ys c1 l l' zs c2 : mroams bl c ys c1 -> o_list (c_opts c1) = Some l ->
    gtid_list_parse (gtid_list_text l) = Ok l' -> mlives bl (client_new (from_mariadb_gtid l')) zs c2 -> mlives bl c (ys :: zs) c2.
