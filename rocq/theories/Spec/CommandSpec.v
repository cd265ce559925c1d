(* What a server reads from the client's packets: MySQL's documented layouts, read field by field. *)
From Coq Require Import Strings.String.
From Verif Require Import Base.Tac Base.Bytes Base.Text Base.Res.
Local Open Scope N_scope.

(* reading with a list of remaining bytes; None = malformed packet *)
Definition sreader (A : Type) := list byte -> option (A * list byte).
Definition sret {A} (a : A) : sreader A := fun bs => Some (a, bs).
Definition sbind {A B} (p : sreader A) (f : A -> sreader B) : sreader B :=
  fun bs => match p bs with Some (a, r) => f a r | None => None end.
Notation "x <~ p ;; q" := (sbind p (fun x => q)) (at level 100, p at next level, right associativity).
Definition s_bytes (n : nat) : sreader (list byte) :=
  fun bs => if (length bs <? n)%nat then None else Some (firstn n bs, skipn n bs).
Definition s_int (n : nat) : sreader N := bs <~ s_bytes n ;; sret (le_dec bs).       (* little endian *)
Definition s_rest : sreader (list byte) := fun bs => Some (bs, []).
(* up to a NUL byte, which must be there *)
Fixpoint s_nul (bs : list byte) : option (list byte * list byte) :=
  match bs with
  | [] => None
  | b :: r => if b2n b =? 0 then Some ([], r) else match s_nul r with Some (x, r') => Some (b :: x, r') | None => None end
  end.
Definition s_check (b : bool) : sreader unit := fun bs => if b then Some (tt, bs) else None.
Fixpoint s_times {A} (n : nat) (p : sreader A) : sreader (list A) :=
  match n with O => sret [] | S n' => x <~ p ;; xs <~ s_times n' p ;; sret (x :: xs) end.
(* the whole packet must be used *)
Definition s_whole {A} (p : sreader A) (bs : list byte) : option A :=
  match p bs with Some (a, []) => Some a | _ => None end.

(* COM_BINLOG_DUMP: position, flags, server id, file name *)
Definition srv_dump (packet : list byte) : option (N * N * N * list byte) :=
  s_whole (c <~ s_int 1 ;; _ <~ s_check (c =? 0x12) ;;
           pos <~ s_int 4 ;; flags <~ s_int 2 ;; id <~ s_int 4 ;; name <~ s_rest ;; sret (pos, flags, id, name)) packet.

(* COM_BINLOG_DUMP_GTID: flags, server id, name length, name, position, data size, then the set: number of servers;
   for each its id, its number of intervals, each with start and exclusive end.  As in MySQL's decoder intervals must be
   non-empty and ascending, and the set must fill exactly the announced size. *)
Notation srv_set := (list (list byte * list (N * N))).
Definition srv_interval : sreader (N * N) := s <~ s_int 8 ;; e <~ s_int 8 ;; sret (s, e).
Fixpoint ascending (last : N) (ivs : list (N * N)) : bool :=
  match ivs with
  | [] => true
  | (s, e) :: r => (last <? s) && (s <? e) && ascending e r
  end.
Definition srv_entry : sreader (list byte * list (N * N)) :=
  sid <~ s_bytes 16 ;; n <~ s_int 8 ;; ivs <~ s_times (N.to_nat n) srv_interval ;; _ <~ s_check (ascending 0 ivs) ;; sret (sid, ivs).
Definition srv_sets : sreader srv_set := n <~ s_int 8 ;; s_times (N.to_nat n) srv_entry.
Record srv_gtid_request := SrvGtidRequest { sg_flags : N; sg_id : N; sg_name : list byte; sg_pos : N; sg_set : srv_set }.
Definition srv_dump_gtid (packet : list byte) : option srv_gtid_request :=
  s_whole (c <~ s_int 1 ;; _ <~ s_check (c =? 0x1E) ;;
           flags <~ s_int 2 ;; id <~ s_int 4 ;; nl <~ s_int 4 ;; name <~ s_bytes (N.to_nat nl) ;; pos <~ s_int 8 ;;
           size <~ s_int 4 ;; data <~ s_bytes (N.to_nat size) ;;
           match s_whole srv_sets data with
           | Some set => sret (SrvGtidRequest flags id name pos set)
           | None => fun _ => None
           end) packet.
(* transaction n of server d is in the set the server read *)
Definition srv_has (s : srv_set) (d : list byte) (n : N) : Prop :=
  exists ivs a b, In (d, ivs) s /\ In (a, b) ivs /\ a <= n < b.

(* COM_QUERY *)
Definition srv_query (packet : list byte) : option (list byte) :=
  s_whole (c <~ s_int 1 ;; _ <~ s_check (c =? 0x03) ;; s_rest) packet.

(* COM_REGISTER_SLAVE: server id; host, user and password with one length byte each; port, rank, master id *)
Record srv_slave := SrvSlave { sl_id : N; sl_host : list byte; sl_user : list byte; sl_password : list byte; sl_port : N; sl_rank : N; sl_master : N }.
Definition s_short : sreader (list byte) := n <~ s_int 1 ;; s_bytes (N.to_nat n).
Definition srv_register (packet : list byte) : option srv_slave :=
  s_whole (c <~ s_int 1 ;; _ <~ s_check (c =? 0x15) ;;
           id <~ s_int 4 ;; h <~ s_short ;; u <~ s_short ;; p <~ s_short ;; port <~ s_int 2 ;; rank <~ s_int 4 ;; m <~ s_int 4 ;;
           sret (SrvSlave id h u p port rank m)) packet.

(* HandshakeResponse41 and SSLRequest *)
Record srv_login := SrvLogin { lo_caps : N; lo_max : N; lo_collation : N; lo_user : list byte; lo_auth : list byte;
  lo_database : option (list byte); lo_plugin : option (list byte) }.
Definition has_flag (caps bit : N) : bool := N.testbit caps bit.
Definition srv_login_packet (packet : list byte) : option srv_login :=
  s_whole (caps <~ s_int 4 ;; mx <~ s_int 4 ;; co <~ s_int 1 ;; filler <~ s_bytes 23 ;;
           _ <~ s_check (forallb (fun b => b2n b =? 0) filler) ;;
           _ <~ s_check (has_flag caps 9 && has_flag caps 15) ;;         (* PROTOCOL_41, SECURE_CONNECTION *)
           user <~ s_nul ;; auth <~ s_short ;;
           db <~ (if has_flag caps 3 then d <~ s_nul ;; sret (Some d) else sret None) ;;
           pl <~ (if has_flag caps 19 then p <~ s_nul ;; sret (Some p) else sret None) ;;
           sret (SrvLogin caps mx co user auth db pl)) packet.
Definition srv_ssl_request (packet : list byte) : option (N * N * N) :=
  s_whole (caps <~ s_int 4 ;; mx <~ s_int 4 ;; co <~ s_int 1 ;; filler <~ s_bytes 23 ;;
           _ <~ s_check (forallb (fun b => b2n b =? 0) filler) ;; _ <~ s_check (has_flag caps 11) ;; sret (caps, mx, co)) packet.

(* ---- password checks on the server ---- *)
(* byte-wise xor; the key is repeated *)
Definition byte_x (a b : byte) : byte := n2b (N.lxor (b2n a) (b2n b)).
Definition xor_cycled (data key : list byte) : list byte :=
  map (fun i => byte_x (nth i data (n2b 0)) (nth (i mod length key) key (n2b 0))) (seq 0 (length data)).
(* mysql_native_password: the server holds stage2 = H(H(password)); from the reply it recovers H(password) *)
Definition native_accepts (H : list byte -> list byte) (stage2 scramble reply : list byte) : Prop :=
  length reply = length stage2 /\ H (xor_cycled reply (H (scramble ++ stage2))) = stage2.
(* caching_sha2_password, fast path: the digests are in the other order *)
Definition caching_accepts (H : list byte -> list byte) (stage2 scramble reply : list byte) : Prop :=
  length reply = length stage2 /\ H (xor_cycled reply (H (stage2 ++ scramble))) = stage2.
