(* What MySQL GTID sets mean, independently of how the code updates them. *)
From Verif Require Import Base.Tac Base.Bytes Base.Text Base.Res Base.Str Model.Gtid.
Local Open Scope N_scope.

(* transaction n lies in the interval / in one of the intervals *)
Definition iv_has (i : interval) (n : N) : Prop := istart i <= n <= iend i.
Definition ivs_has (ivs : list interval) (n : N) : Prop := exists i, In i ivs /\ iv_has i n.

(* transaction n of the server with the 16-byte id d is in the set *)
Definition set_has (s : gtid_set) (d : list byte) (n : N) : Prop :=
  exists k us, In (k, us) s /\ udata (us_source us) = d /\ ivs_has (us_ivs us) n.

(* sorted, disjoint, never adjacent, non-empty intervals *)
Fixpoint canonical (ivs : list interval) : Prop :=
  match ivs with
  | [] => True
  | i :: r =>
    istart i <= iend i
    /\ match r with [] => True | j :: _ => iend i + 1 < istart j end
    /\ canonical r
  end.

(* the largest u64; MySQL's largest transaction number is 2^63 - 2 *)
Definition u64_top : N := 18446744073709551615.

(* intervals the theorems about adding range over: non-empty, below the largest u64 *)
Definition iv_ok (i : interval) : Prop := istart i <= iend i /\ iend i < u64_top.

(* the last interval reaches the largest u64, t is not directly before it and every other interval ends before t *)
Definition overflows (ivs : list interval) (t : N) : Prop :=
  exists l i, ivs = l ++ [i] /\ iend i = u64_top /\ istart i <> t + 1 /\ Forall (fun j => iend j < t) l.

(* a Uuid value produced by one of the two public constructors *)
Definition uuid_ok (u : uuid) : Prop := uuid_parse (utext u) = Ok u.
(* its text has the usual 36 characters (always so for Uuid::new and for parsed sets) *)
Definition uuid_ok36 (u : uuid) : Prop := uuid_ok u /\ length (utext u) = 36%nat.

(* well-formed sets: what parse, new, add_gtid and the event decoder produce *)
Definition set_ok (s : gtid_set) : Prop :=
  NoDup (map fst s) /\
  Forall (fun e => fst e = utext (us_source (snd e)) /\ uuid_ok (us_source (snd e))
                   /\ Forall iv_ok (us_ivs (snd e))) s.

(* canonical sets: additionally canonical intervals and no empty entry *)
Definition set_canonical (s : gtid_set) : Prop :=
  Forall (fun e => canonical (us_ivs (snd e)) /\ us_ivs (snd e) <> []) s.

(* sets that can be written down: 36 character ids, canonical non-empty intervals, u64 bounds *)
Definition set_writable (s : gtid_set) : Prop :=
  NoDup (map fst s) /\
  Forall (fun e => fst e = utext (us_source (snd e)) /\ uuid_ok36 (us_source (snd e))
           /\ canonical (us_ivs (snd e)) /\ us_ivs (snd e) <> []
           /\ Forall (fun i => iend i < u64max1) (us_ivs (snd e))) s.

(* every entry spells its server id the way the server does (lower case, hyphens) *)
Definition set_spelled (s : gtid_set) : Prop :=
  Forall (fun e => us_source (snd e) = uuid_new (udata (us_source (snd e)))
                   /\ length (udata (us_source (snd e))) = 16%nat) s.

(* adding a history of transactions, stopping at the first panic or error *)
Fixpoint add_all (bl : build) (s : gtid_set) (h : list gtid) : res gtid_set :=
  match h with
  | [] => Ok s
  | g :: r => let? bs := gtid_set_add bl s g in add_all bl (snd bs) r
  end.

(* ---- written GTID sets (for parse) ---- *)
(* a number as written: any number of leading zeros *)
Definition num_text (z : nat) (n : N) : text := repeat 48 z ++ dec_text n.
(* `a` or `a-b` *)
Inductive written_iv :=
| WOne (z : nat) (a : N)
| WRange (z1 : nat) (a : N) (z2 : nat) (b : N).
Definition written_iv_text (w : written_iv) : text :=
  match w with
  | WOne z a => num_text z a
  | WRange z1 a z2 b => num_text z1 a ++ [45] ++ num_text z2 b
  end.
Definition written_iv_lo (w : written_iv) : N := match w with WOne _ a => a | WRange _ a _ _ => a end.
Definition written_iv_hi (w : written_iv) : N := match w with WOne _ a => a | WRange _ _ _ b => b end.
(* white space, uuid, `:interval` for each interval, white space *)
Record written_part := WPart { wp_left : text; wp_uuid : uuid; wp_ivs : list written_iv; wp_right : text }.
Definition written_part_text (p : written_part) : text :=
  wp_left p ++ (utext (wp_uuid p) ++ flat_map (fun w => 58 :: written_iv_text w) (wp_ivs p)) ++ wp_right p.
Definition written_part_ok (p : written_part) : Prop :=
  all_ws (wp_left p) /\ all_ws (wp_right p) /\ uuid_ok36 (wp_uuid p) /\ wp_ivs p <> [] /\
  Forall (fun w => written_iv_lo w <= written_iv_hi w /\ written_iv_hi w < u64_top) (wp_ivs p).
Definition written_text (ps : list written_part) : text := join [44] (map written_part_text ps).
(* what is listed *)
Definition written_has (ps : list written_part) (d : list byte) (n : N) : Prop :=
  exists p w, In p ps /\ In w (wp_ivs p) /\ udata (wp_uuid p) = d /\ written_iv_lo w <= n <= written_iv_hi w.

(* ---- texts on which parse cannot panic ---- *)
(* the first 36 characters hold at least 32 besides hyphens *)
Definition part_long (p : text) : Prop := (32 <= length (remove_char 45 (firstn 36 p)))%nat.
(* no interval bound is written with 20 or more characters *)
Definition part_short_numbers (p : text) : Prop :=
  Forall (fun tok => Forall (fun x => (length x < 20)%nat) (split_on 45 tok)) (split_on 58 (skipn 37 p)).

(* size of an encoded set: 16 bytes and a count per server, two numbers per interval *)
Definition set_size (s : gtid_set) : nat := list_sum (map (fun e => 24 + 16 * length (us_ivs (snd e))) s)%nat.
