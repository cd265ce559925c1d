(* BinlogClient state and commit(): src/binlog_client.rs, src/binlog_options.rs, src/starting_strategy.rs *)
From Coq Require Import Strings.String.
From Verif Require Import Base.Tac Base.Bytes Base.Text Base.Res Base.Str Model.Gtid Model.GtidMaria Model.Events.
Local Open Scope N_scope.

(* starting_strategy.rs *)
Inductive strategy := FromStart | FromEnd | FromPosition | FromGtid.

(* binlog_options.rs:8-29 *)
Record options := Options {
  o_file : text; o_pos : N; o_set : option gtid_set; o_list : option gtid_list; o_strategy : strategy }.
(* binlog_options.rs:33-85 *)
Definition from_start : options := Options [] 4 None None FromStart.
Definition from_end : options := Options [] 0 None None FromEnd.
Definition from_position (f : text) (p : N) : options := Options f p None None FromPosition.
Definition from_mysql_gtid (s : gtid_set) : options := Options [] 4 (Some s) None FromGtid.
Definition from_mariadb_gtid (l : gtid_list) : options := Options [] 4 None (Some l) FromGtid.

(* binlog_client.rs:15-20; only the replication position part of ReplicaOptions, the rest is never written *)
Record client := Client {
  c_opts : options; c_txn : bool; c_maria : option mgtid; c_mysql : option gtid }.
(* binlog_client.rs:23-34 (SslMode::Disabled) *)
Definition client_new (o : options) : client := Client o false None None.
(* binlog_client.rs:41-43: reset on reconnect *)
Definition client_reset (c : client) : client := Client (c_opts c) false None None.

Definition with_set (o : options) (s : option gtid_set) : options := Options (o_file o) (o_pos o) s (o_list o) (o_strategy o).
Definition with_list (o : options) (l : option gtid_list) : options := Options (o_file o) (o_pos o) (o_set o) l (o_strategy o).
Definition with_coords (o : options) (f : text) (p : N) : options := Options f p (o_set o) (o_list o) (o_strategy o).

(* binlog_client.rs:119-132; add_gtid(..).unwrap() panics on Err *)
Definition commit_gtid (bl : build) (c : client) : res client :=
  let o := c_opts c in
  let o := match c_maria c, o_list o with
           | Some g, Some l => with_list o (Some (snd (gtid_list_add l g)))
           | _, _ => o
           end in
  let? o := match c_mysql c, o_set o with
            | Some g, Some s =>
              match gtid_set_add bl s g with
              | Ok (_, s') => Ok (with_set o (Some s'))
              | Err _ => Panic
              | Panic => Panic
              | Diverge => Diverge
              end
            | _, _ => Ok o
            end in
  Ok (Client o false (c_maria c) (c_mysql c)).

Definition strategy_eqb (a b : strategy) : bool :=
  match a, b with
  | FromStart, FromStart | FromEnd, FromEnd | FromPosition, FromPosition | FromGtid, FromGtid => true
  | _, _ => false
  end.

(* binlog_client.rs:69-99 *)
Definition update_gtid_position (bl : build) (c : client) (e : event) : res client :=
  if negb (strategy_eqb (o_strategy (c_opts c)) FromGtid) then Ok c
  else
    match e with
    | EvMariaGtid x => Ok (Client (c_opts c) (c_txn c) (Some (ma_gtid x)) (c_mysql c))
    | EvMySqlGtid x => Ok (Client (c_opts c) (c_txn c) (c_maria c) (Some (me_gtid x)))
    | EvXid _ => commit_gtid bl c
    | EvQuery q =>
      match q_sql q with
      | [] => Ok c
      | sql =>
        if text_eqb sql (tx "BEGIN") then Ok (Client (c_opts c) true (c_maria c) (c_mysql c))
        else if text_eqb sql (tx "COMMIT") || text_eqb sql (tx "ROLLBACK") then commit_gtid bl c
        else if negb (c_txn c) then commit_gtid bl c
        else Ok c
      end
    | _ => Ok c
    end.

(* binlog_client.rs:101-117 *)
Definition update_binlog_position (c : client) (h : header) (e : event) : client :=
  let o := c_opts c in
  match e with
  | EvTableMap _ => c
  | EvRotate r => Client (with_coords o (ro_file r) (ro_pos r mod u32max1)) (c_txn c) (c_maria c) (c_mysql c)
  | _ => if 0 <? h_next h then Client (with_coords o (o_file o) (h_next h)) (c_txn c) (c_maria c) (c_mysql c) else c
  end.

(* binlog_client.rs:64-67 *)
Definition commit (bl : build) (c : client) (h : header) (e : event) : res client :=
  let? c := update_gtid_position bl c e in Ok (update_binlog_position c h e).

(* the user's loop: commit after each event *)
Fixpoint commit_all (bl : build) (c : client) (es : list (header * event)) : res client :=
  match es with
  | [] => Ok c
  | (h, e) :: r => let? c := commit bl c h e in commit_all bl c r
  end.
