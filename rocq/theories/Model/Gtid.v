(* MySQL GTID sets: src/providers/mysql/gtid/*.rs *)
From Coq Require Import Strings.String.
From Verif Require Import Base.Tac Base.Bytes Base.Text Base.Res Base.Str.
Local Open Scope N_scope.

(* uuid.rs:7-10  struct Uuid { data: [u8; 16], uuid: String }.  [udata] is a list; the proofs require its length
   to be 16 where Rust's type does. *)
Record uuid := Uuid { udata : list byte; utext : text }.

(* String::insert(idx, ch), for idx <= len *)
Definition insert_at (i : nat) (c : N) (t : text) : text := firstn i t ++ c :: skipn i t.

(* uuid.rs:13-20 *)
Definition uuid_new (data : list byte) : uuid :=
  let h := hex_encode data in
  let h := insert_at 20 45 h in
  let h := insert_at 16 45 h in
  let h := insert_at 12 45 h in
  let h := insert_at 8 45 h in
  Uuid data h.

(* uuid.rs:23-31; `vec[i]` for i in 0..16 panics when fewer than 16 bytes were decoded, extra bytes are dropped *)
Definition uuid_parse (t : text) : res uuid :=
  match hex_decode (remove_char 45 t) with
  | None => Err EHex
  | Some v => if (length v <? 16)%nat then Panic else Ok (Uuid (firstn 16 v) t)
  end.

(* gtid.rs:6-12 *)
Record gtid := Gtid { g_source : uuid; g_txn : N }.

(* gtid.rs:23-28 *)
Definition gtid_text (g : gtid) : text := utext (g_source g) ++ [58] ++ dec_text (g_txn g).

(* interval.rs:5-11 *)
Record interval := Interval { istart : N; iend : N }.

(* interval.rs:19-28 *)
Definition interval_text (i : interval) : text :=
  if istart i =? iend i then dec_text (istart i)
  else dec_text (istart i) ++ [45] ++ dec_text (iend i).

(* uuid_set.rs:9-15 *)
Record uuid_set := UuidSet { us_source : uuid; us_ivs : list interval }.

(* uuid_set.rs:66-76: the while loop of find_interval_index.  [inl i] = `return result_index`,
   [inr r] = loop left with that result_index.  `intervals[result_index]` is nth_error: None = index panic. *)
Fixpoint find_loop (fuel : nat) (ivs : list interval) (t : N) (left right result : nat)
  : res (nat + nat) :=
  if (left <? right)%nat then
    match fuel with
    | O => Diverge
    | S f =>
      let result := ((left + right) / 2)%nat in
      match nth_error ivs result with
      | None => Panic
      | Some i =>
        if iend i <? t then find_loop f ivs t (result + 1) right result
        else if t <? istart i then find_loop f ivs t left result result
        else Ok (inl result)
      end
    end
  else Ok (inr result).

(* uuid_set.rs:61-81 find_interval_index *)
Definition find_interval_index (ivs : list interval) (t : N) : res nat :=
  let? r := find_loop (S (length ivs)) ivs t 0 (length ivs) 0 in
  match r with
  | inl i => Ok i
  | inr result =>
    match ivs with
    | [] => Ok result
    | _ => match nth_error ivs result with
           | None => Panic
           | Some i => if iend i <? t then Ok (result + 1)%nat else Ok result
           end
    end
  end.

(* Vec::remove(index + 1) and `intervals[index] = x` as list surgery *)
Definition list_set {A} (l : list A) (i : nat) (x : A) : list A :=
  match skipn i l with [] => l | _ :: r => firstn i l ++ x :: r end.
Definition list_remove {A} (l : list A) (i : nat) : list A := firstn i l ++ skipn (S i) l.
Definition list_insert {A} (l : list A) (i : nat) (x : A) : list A := firstn i l ++ x :: skipn i l.

(* uuid_set.rs:83-98 collapse_intervals; only called with at least two intervals, so len() - 1 does not
   underflow.  `left.end + 1` is checked u64 arithmetic. *)
Fixpoint collapse_loop (fuel : nat) (bl : build) (ivs : list interval) (index : nat) : res (list interval) :=
  if (index <? length ivs - 1)%nat then
    match fuel with
    | O => Diverge
    | S f =>
      match nth_error ivs index, nth_error ivs (index + 1) with
      | Some l, Some r =>
        let? e := uadd u64max1 bl (iend l) 1 in
        if e =? istart r
        then collapse_loop f bl (list_remove (list_set ivs index (Interval (istart l) (iend r))) (index + 1)) index
        else collapse_loop f bl ivs (index + 1)
      | _, _ => Panic
      end
    end
  else Ok ivs.
Definition collapse_intervals (bl : build) (ivs : list interval) : res (list interval) :=
  collapse_loop (length ivs) bl ivs 0.

(* uuid_set.rs:18-26 *)
Definition uuid_set_new (bl : build) (src : uuid) (ivs : list interval) : res uuid_set :=
  let? ivs' := (if (1 <? length ivs)%nat then collapse_intervals bl ivs else Ok ivs) in
  Ok (UuidSet src ivs').

Definition bytes_eqb (a b : list byte) : bool :=
  (length a =? length b)%nat && forallb (fun p => byte_eqb (fst p) (snd p)) (combine a b).

Definition foreign_source : text := tx "SourceId of the passed gtid doesn't belong to the UuidSet".

(* uuid_set.rs:37-49: the update of the interval at [index], if there is one.  [None] = `return Ok(false)`,
   [Some (ivs, added)] otherwise. *)
Definition touch_interval (bl : build) (ivs : list interval) (index : nat) (t : N)
  : res (option (list interval * bool)) :=
  match nth_error ivs index with
  | Some i =>
    let? t1 := uadd u64max1 bl t 1 in
    if istart i =? t1 then Ok (Some (list_set ivs index (Interval t (iend i)), true))
    else
      let? e1 := uadd u64max1 bl (iend i) 1 in
      if e1 =? t then Ok (Some (list_set ivs index (Interval (istart i) t), true))
      else if (istart i <=? t) && (t <=? iend i) then Ok None
      else Ok (Some (ivs, false))
  | None => Ok (Some (ivs, false))
  end.

(* uuid_set.rs:29-58 UuidSet::add_gtid: returned flag and updated set.  When it returns Err the set is unchanged. *)
Definition uuid_set_add (bl : build) (s : uuid_set) (g : gtid) : res (bool * uuid_set) :=
  if negb (bytes_eqb (udata (us_source s)) (udata (g_source g))) then Err (EString foreign_source)
  else
    let t := g_txn g in
    let? index := find_interval_index (us_ivs s) t in
    let? r := touch_interval bl (us_ivs s) index t in
    match r with
    | None => Ok (false, s)
    | Some (ivs, added) =>
      let ivs := if added then ivs else list_insert ivs index (Interval t t) in
      let? ivs := (if (1 <? length ivs)%nat then collapse_intervals bl ivs else Ok ivs) in
      Ok (true, UuidSet (us_source s) ivs)
    end.

(* uuid_set.rs:100-112 *)
Definition uuid_set_text (s : uuid_set) : text :=
  utext (us_source s) ++ [58] ++ join [58] (map interval_text (us_ivs s)).

(* gtid_set.rs:14-17: HashMap<String, UuidSet> as an association list, insertion order irrelevant to every
   observation (whoever iterates takes an arbitrary permutation). *)
Definition gtid_set := list (text * uuid_set).

Fixpoint hm_get {V} (k : text) (m : list (text * V)) : option V :=
  match m with
  | [] => None
  | (k', v) :: r => if text_eqb k k' then Some v else hm_get k r
  end.
(* HashMap::insert *)
Fixpoint hm_put {V} (k : text) (v : V) (m : list (text * V)) : list (text * V) :=
  match m with
  | [] => [(k, v)]
  | (k', v') :: r => if text_eqb k k' then (k', v) :: r else (k', v') :: hm_put k v r
  end.

(* gtid_set.rs:20-24 *)
Definition gtid_set_new : gtid_set := [].

Definition invalid_interval (token : text) : text := tx "Invalid interval format " ++ token.

(* gtid_set.rs:44-52: one `a` or `a-b` token *)
Definition parse_interval (token : text) : res interval :=
  match split_on 45 token with
  | [a] => let? x := parse_uint u64max1 a in let? y := parse_uint u64max1 a in Ok (Interval x y)
  | [a; b] => let? x := parse_uint u64max1 a in let? y := parse_uint u64max1 b in Ok (Interval x y)
  | _ => Err (EString (invalid_interval token))
  end.

(* gtid_set.rs:36-54, one round of the loop: UUID = first 36 characters, intervals = everything after the 37th *)
Definition parse_uuid_part (bl : build) (part : text) : res (uuid * uuid_set) :=
  let? src := uuid_parse (firstn 36 part) in
  let? ivs := mapM parse_interval (split_on 58 (skipn 37 part)) in
  let? us := uuid_set_new bl src ivs in
  Ok (src, us).

Fixpoint parse_parts (bl : build) (parts : list text) (acc : gtid_set) : res gtid_set :=
  match parts with
  | [] => Ok acc
  | p :: r =>
    let? su := parse_uuid_part bl p in
    parse_parts bl r (hm_put (utext (fst su)) (snd su) acc)
  end.

(* gtid_set.rs:27-57 GtidSet::parse *)
Definition gtid_set_parse (bl : build) (t : text) : res gtid_set :=
  match t with
  | [] => Ok gtid_set_new
  | _ => parse_parts bl (map trim (split_on 44 (remove_char 10 t))) []
  end.

(* gtid_set.rs:60-67 GtidSet::add_gtid.  (When the inner call fails the entry existed before, so nothing changed.) *)
Definition gtid_set_add (bl : build) (s : gtid_set) (g : gtid) : res (bool * gtid_set) :=
  let k := utext (g_source g) in
  let us := match hm_get k s with Some us => us | None => UuidSet (g_source g) [] end in
  let? r := uuid_set_add bl us g in
  Ok (fst r, hm_put k (snd r) s).

(* gtid_set.rs:70-82 Display; [order] is the sequence of entries produced by the hash map's iterator: some
   permutation of the entries *)
Definition gtid_set_text (order : gtid_set) : text :=
  join [44] (sort_texts (map (fun e => uuid_set_text (snd e)) order)).
