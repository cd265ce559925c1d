(* What any text that a GTID parser accepts says (C06, C11). *)
From Verif Require Import Base.Tac Base.Bytes Base.Text Base.Str Model.Gtid Model.GtidMaria Spec.GtidTextSpec.
Local Open Scope N_scope.

Inductive hex_says : text -> list byte -> Prop :=
| hs_nil : hex_says [] []
| hs_byte a b x y t bs : digit_is a x -> digit_is b y -> hex_says t bs -> hex_says (a :: b :: t) (n2b (16 * x + y) :: bs)
with digit_is : N -> N -> Prop :=
| di_digit c : 48 <= c <= 57 -> digit_is c (c - 48)
| di_lower c : 97 <= c <= 102 -> digit_is c (c - 87)
| di_upper c : 65 <= c <= 70 -> digit_is c (c - 55).
(* `n` or `lo-hi` *)
Definition iv_says (tok : text) (i : N * N) : Prop :=
  (cut 45 tok [tok] /\ fst i = snd i /\ number (2 ^ 64) tok (fst i)) \/
  exists a b, cut 45 tok [a; b] /\ number (2 ^ 64) a (fst i) /\ number (2 ^ 64) b (snd i).
(* Intervals of which one begins where the one written before it ends are joined, whatever their other ends are
   (numbers are counted modulo 2^64). *)
Definition touches (a b : N * N) : Prop := fst b = (snd a + 1) mod 2 ^ 64.
Inductive joined : list (N * N) -> list (N * N) -> Prop :=
| jo_one a : joined [a] [a]
| jo_touch a b r c out : touches a b -> joined (b :: r) (c :: out) -> joined (a :: b :: r) ((fst a, snd c) :: out)
| jo_apart a b r out : ~ touches a b -> joined (b :: r) out -> joined (a :: b :: r) (a :: out).
(* a part of a MySQL set: spelling and bytes of the server id, intervals *)
Definition part_says (p : text) (e : text * (list byte * list (N * N))) : Prop :=
  let '(k, (d, ivs)) := e in
  k = firstn 36 p /\ length d = 16%nat /\ (exists more, hex_says (id_chars p) (d ++ more)) /\
  exists toks said, cut 58 (skipn 37 p) toks /\ Forall2 iv_says toks said /\ joined said ivs.
(* a part of a MariaDB list: domain, server, sequence number; further numbers are passed over *)
Definition maria_says (p : text) (g : N * N * N) : Prop :=
  let '(d, s, q) := g in
  exists a b c more, cut 45 p (a :: b :: c :: more) /\ number (2 ^ 32) a d /\ number (2 ^ 32) b s /\ number (2 ^ 64) c q.
(* such a part as an entry of the set, and of the list *)
Definition entry_of (e : text * (list byte * list (N * N))) : text * uuid_set :=
  (fst e, UuidSet (Uuid (fst (snd e)) (fst e)) (map (fun i => Interval (fst i) (snd i)) (snd (snd e)))).
Definition triple_of (g : mgtid) : N * N * N := (mg_domain g, mg_server g, mg_seq g).
