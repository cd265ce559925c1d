(* MariaDB GTID lists: src/providers/mariadb/gtid/*.rs *)
From Coq Require Import Strings.String.
From Verif Require Import Base.Tac Base.Bytes Base.Text Base.Res Base.Str.
Local Open Scope N_scope.

(* gtid.rs:5-14 (u32, u32, u64) *)
Record mgtid := MGtid { mg_domain : N; mg_server : N; mg_seq : N }.

(* gtid.rs:26-31 *)
Definition mgtid_text (g : mgtid) : text :=
  dec_text (mg_domain g) ++ [45] ++ dec_text (mg_server g) ++ [45] ++ dec_text (mg_seq g).

(* gtid_list.rs:8-11 *)
Definition gtid_list := list mgtid.

Definition dup_domain : text := tx "GtidList must consist of unique domain ids".

(* gtid_list.rs:31-34: components[0..2] panic when there are fewer than three, extra ones are ignored.  The three
   parses happen in order, each indexing right before parsing. *)
Definition parse_mgtid (t : text) : res mgtid :=
  match split_on 45 t with
  | a :: r =>
    let? d := parse_uint u32max1 a in
    match r with
    | b :: r =>
      let? s := parse_uint u32max1 b in
      match r with
      | c :: _ => let? q := parse_uint u64max1 c in Ok (MGtid d s q)
      | [] => Panic
      end
    | [] => Panic
    end
  | [] => Panic
  end.

(* gtid_list.rs:30-45; [seen] is the HashSet of domains *)
Fixpoint parse_mgtids (parts : list text) (seen : list N) (acc : gtid_list) : res gtid_list :=
  match parts with
  | [] => Ok acc
  | p :: r =>
    let? g := parse_mgtid p in
    if existsb (N.eqb (mg_domain g)) seen then Err (EString dup_domain)
    else parse_mgtids r (mg_domain g :: seen) (acc ++ [g])
  end.

(* gtid_list.rs:19-48 *)
Definition gtid_list_parse (t : text) : res gtid_list :=
  match t with
  | [] => Ok []
  | _ => parse_mgtids (map trim (split_on 44 (remove_char 10 t))) [] []
  end.

(* gtid_list.rs:51-60 *)
Fixpoint gtid_list_add (l : gtid_list) (g : mgtid) : bool * gtid_list :=
  match l with
  | [] => (true, [g])
  | x :: r =>
    if mg_domain x =? mg_domain g then (false, g :: r)
    else let '(b, r') := gtid_list_add r g in (b, x :: r')
  end.

(* gtid_list.rs:63-75 *)
Definition gtid_list_text (l : gtid_list) : text := join [44] (map mgtid_text l).
