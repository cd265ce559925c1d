(* Which texts are GTID positions, said without the parsers: numbers, separators and the parts of a set or list. *)
From Verif Require Import Base.Tac Base.Bytes Base.Text Base.Str.
Local Open Scope N_scope.

(* one or more decimal digits and the number they spell *)
Inductive spells : text -> N -> Prop :=
| spells_one c : 48 <= c <= 57 -> spells [c] (c - 48)
| spells_more t n c : spells t n -> 48 <= c <= 57 -> spells (t ++ [c]) (10 * n + (c - 48)).
(* a number below [m], with or without a plus sign *)
Definition number (m : N) (t : text) (n : N) : Prop := n < m /\ (spells t n \/ exists t', t = 43 :: t' /\ spells t' n).
(* [l] is what lies between the separators [c] of [t] *)
Definition cut (c : N) (t : text) (l : list text) : Prop := t = join [c] l /\ l <> [] /\ Forall (fun p => ~ In c p) l.
Definition hex_digit (c : N) : Prop := 48 <= c <= 57 \/ 65 <= c <= 70 \/ 97 <= c <= 102.

(* ---- MariaDB: domain-server-sequence ---- *)
(* a part with at least the three numbers, of domain [d] *)
Definition maria_part (p : text) (d : N) : Prop :=
  exists a b c more s q, cut 45 p (a :: b :: c :: more) /\ number (2 ^ 32) a d /\ number (2 ^ 32) b s /\ number (2 ^ 64) c q.
(* a part that ends after one or two numbers *)
Definition maria_short (p : text) : Prop :=
  exists a d, number (2 ^ 32) a d /\ (cut 45 p [a] \/ exists b s, cut 45 p [a; b] /\ number (2 ^ 32) b s).

(* ---- MySQL: server id, then intervals separated by colons ---- *)
(* the characters read as server id: the first 36, hyphens left out *)
Definition id_chars (p : text) : text := remove_char 45 (firstn 36 p).
Definition id_full (p : text) : Prop := Forall hex_digit (id_chars p) /\ Nat.Even (length (id_chars p)) /\ (32 <= length (id_chars p))%nat.
Definition id_short (p : text) : Prop := Forall hex_digit (id_chars p) /\ Nat.Even (length (id_chars p)) /\ (length (id_chars p) < 32)%nat.
(* `n` or `lo-hi`: the upper bound *)
Definition iv_token (tok : text) (hi : N) : Prop :=
  (cut 45 tok [tok] /\ number (2 ^ 64) tok hi) \/
  exists a b lo, cut 45 tok [a; b] /\ number (2 ^ 64) a lo /\ number (2 ^ 64) b hi.
(* a well-formed part and the upper bounds of its intervals, in order *)
Definition mysql_part (p : text) (his : list N) : Prop :=
  id_full p /\ exists toks, cut 58 (skipn 37 p) toks /\ Forall2 iv_token toks his.
(* some interval other than the last ends at the largest number *)
Definition top_inside (his : list N) : Prop := In (2 ^ 64 - 1) (removelast his).
