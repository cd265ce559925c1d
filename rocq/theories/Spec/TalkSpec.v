(* Setting up replication, seen from the packets the client receives: which sequences of them lead to an event stream, and which to a panic. *)
From Coq Require Import Strings.String.
From Verif Require Import Base.Tac Base.Bytes Base.Text Base.Res Base.Str Model.Client Model.Commands Model.Responses Model.Channel Model.Session
  Spec.CodecSpec Spec.CommandSpec Spec.ChannelSpec Spec.SessionSpec Spec.GtidTextSpec.
Local Open Scope N_scope.

(* the packets received, with their sequence numbers *)
Definition received (l : list io) : list packet := flat_map (fun x => match x with Received p s => [(p, s)] | Sent _ _ => [] end) l.

(* ---- packets ---- *)
(* a string ended by a NUL byte: what is read, what remains.  One that is cut off loses its last byte. *)
Inductive cstr : list byte -> text -> list byte -> Prop :=
| cs_end t rest : cstring_ok t -> cstr (cstring t ++ rest) t rest
| cs_cut t x : cstring_ok t -> x <> n2b 0 -> cstr (utf8_encode t ++ [x]) t []
| cs_none : cstr [] [] [].
(* the greeting: [y4] is whatever follows *)
Definition greets (p : list byte) (h : handshake) : Prop :=
  exists b y0 id y1 s1 c1 co sf c2 al fi c3 y2 s2 y3 y4,
    p = b :: y0 /\ cstr y0 (hs_version h) (id ++ y1) /\ cstr y1 s1 (c1 ++ [co] ++ sf ++ c2 ++ [al] ++ fi ++ c3 ++ y2) /\
    length id = 4%nat /\ length c1 = 2%nat /\ length sf = 2%nat /\ length c2 = 2%nat /\ length fi = 6%nat /\ length c3 = 4%nat /\
    hs_protocol h = b2n b /\ hs_connection h = le_dec id /\ hs_capabilities h = le_dec (c1 ++ c2 ++ c3) /\ hs_collation h = b2n co /\ hs_status h = le_dec sf /\
    hs_plugin_length h = b2n al /\ valid_text (hs_filler h) /\ fi = utf8_encode (hs_filler h) /\
    (if N.testbit (hs_capabilities h) 15 then cstr y2 s2 y3 else s2 = [] /\ y3 = y2) /\ hs_scramble h = s1 ++ s2 /\
    (if N.testbit (hs_capabilities h) 19 then cstr y3 (hs_plugin h) y4 else hs_plugin h = []).
(* a request for another authentication method *)
Definition switches (p : list byte) (name scramble : text) : Prop := exists x y z, p = n2b 0xFE :: x /\ cstr x name y /\ cstr y scramble z.
(* a row of a result set *)
Inductive row_cells : list byte -> list text -> Prop :=
| rc_nil : row_cells [] []
| rc_cons h t rest cells : valid_text t -> lenenc (N.of_nat (length (utf8_encode t))) h -> row_cells rest cells -> row_cells (h ++ utf8_encode t ++ rest) (t :: cells).
(* a row in which, after some proper cells, a length of 2^63 or more is given *)
Definition row_huge (p : list byte) : Prop := exists a cells n b, p = a ++ n2b 0xFE :: le_enc 8 n ++ b /\ row_cells a cells /\ 2 ^ 63 <= n < 2 ^ 64.

(* ---- login ---- *)
Definition known (name : text) : Prop := name = tx "mysql_native_password" \/ name = tx "caching_sha2_password".
(* the sequence number can be increased *)
Definition counts (bl : build) (n : N) : Prop := bl = Debug -> n <> 255.
(* neither a confirmation of the fast authentication nor cut off: full authentication *)
Definition asks_full (x : list byte) : Prop := exists b d, x = b :: d /\ (b2n b = 1 -> exists c d', d = c :: d' /\ b2n c <> 3).
(* OpenSSL takes the key sent by the server and encrypts the masked password *)
Definition encrypts (ev : env) (st : settings) (scramble : text) (key : list byte) : Prop :=
  exists e, rsa (e_crypto ev) (skipn 1 key) (xor_cycled (utf8_encode (s_password st) ++ [n2b 0]) (utf8_encode scramble)) = Ok e.
(* the caching_sha2_password dialogue, from the answer to the hashed password on *)
Definition sha_ok (bl : build) (ev : env) (st : settings) (scramble : text) (ps : list packet) : Prop :=
  (exists d s, ps = [(n2b 1 :: n2b 3 :: d, s)]) \/
  exists x key fin, ps = [x; key; fin] /\ asks_full (fst x) /\ not_byte 0xFF (fst key) /\ scramble <> [] /\ encrypts ev st scramble (fst key) /\ counts bl (snd key) /\
    not_byte 0xFF (fst fin).
Definition sha_stops (bl : build) (ev : env) (st : settings) (scramble : text) (ps : list packet) : Prop :=
  (exists s, ps = [([n2b 1], s)]) \/
  exists x key, ps = [x; key] /\ asks_full (fst x) /\ not_byte 0xFF (fst key) /\ (scramble = [] \/ encrypts ev st scramble (fst key) /\ ~ counts bl (snd key)).
(* a greeting that is answered with a login *)
Definition greeted (bl : build) (g : packet) (h : handshake) : Prop := not_byte 0xFF (fst g) /\ greets (fst g) h /\ known (hs_plugin h) /\ counts bl (snd g).
(* no SSL where the client may do without *)
Definition plain (st : settings) (h : handshake) : Prop :=
  match s_ssl st with Disabled => True | IfAvailable => N.testbit (hs_capabilities h) 11 = false | _ => False end.
(* an answer to the login other than "accepted", an error or a switch *)
Definition goes_on (p : list byte) : Prop := not_byte 0xFF p /\ not_byte 0xFE p /\ not_byte 0 p.
Definition login_ok (bl : build) (ev : env) (st : settings) (ps : list packet) (pr : provider) : Prop :=
  exists g h qs, ps = g :: qs /\ greeted bl g h /\ plain st h /\ pr = provider_from (hs_version h) /\
    ((exists a, qs = [a] /\ starts_byte 0 (fst a)) \/
     (exists a rs, qs = a :: rs /\ goes_on (fst a) /\ counts bl (snd a) /\ sha_ok bl ev st (hs_scramble h) qs) \/
     (exists a scramble, switches (fst a) (tx "mysql_native_password") scramble /\ counts bl (snd a) /\ exists b, qs = [a; b] /\ not_byte 0xFF (fst b)) \/
     (exists a scramble, switches (fst a) (tx "caching_sha2_password") scramble /\ counts bl (snd a) /\
        exists b rs, qs = a :: b :: rs /\ not_byte 0xFF (fst b) /\ counts bl (snd b) /\ sha_ok bl ev st scramble (b :: rs))).

(* ---- result sets: the first packet, column definitions, EOF, rows, EOF ---- *)
Definition is_row (p : packet) (row : list text) : Prop := not_byte 0xFF (fst p) /\ not_byte 0xFE (fst p) /\ row_cells (fst p) row.
Definition rows_open (ps : list packet) (rows : list (list text)) : Prop :=
  exists first cols e rps, ps = first :: cols ++ e :: rps /\ not_byte 0xFF (fst first) /\ Forall (fun p => not_byte 0xFE (fst p)) cols /\ starts_byte 0xFE (fst e) /\
    Forall2 is_row rps rows.
Definition rows_are (ps : list packet) (rows : list (list text)) : Prop := exists k e, ps = k ++ [e] /\ rows_open k rows /\ starts_byte 0xFE (fst e).

(* ---- the steps after the login ---- *)
(* [o]: the options before, [o']: after *)
Definition at_end (o : options) : Prop := o_strategy o = FromEnd /\ o_file o = [].
Definition status_ok (o : options) (ps : list packet) (o' : options) : Prop :=
  (~ at_end o /\ ps = [] /\ o' = o) \/
  (at_end o /\ exists file ptext pos cells, rows_are ps [file :: ptext :: cells] /\ number (2 ^ 32) ptext pos /\ o' = Options file pos (o_set o) (o_list o) (o_strategy o)).
(* the position, the two statements *)
Definition started (o : options) (ps : list packet) (o' : options) : Prop :=
  exists qs a1 a2, ps = qs ++ [a1; a2] /\ status_ok o qs o' /\ not_byte 0xFF (fst a1) /\ not_byte 0xFF (fst a2).
Definition sums_ok (o : options) (ps : list packet) (o' : options) (ck : Events.checksum) : Prop :=
  exists qs rs cells rows, ps = qs ++ rs /\ started o qs o' /\ rows_are rs ((checksum_name ck :: cells) :: rows).
(* the statements before the dump is requested *)
Definition request_ok (pr : provider) (o : options) (ps : list packet) : Prop :=
  match pr with
  | MySQL => ps = [] /\ (o_strategy o = FromGtid -> o_set o <> None)
  | MariaDB => Forall (fun p => not_byte 0xFF (fst p)) ps /\ length ps = (match o_strategy o with FromGtid => 5 | _ => 1 end)%nat /\ (o_strategy o = FromGtid -> o_list o <> None)
  end.
(* a file name with which the dump command fits into a packet *)
Definition short_name (o : options) : Prop := N.of_nat (length (utf8_encode (o_file o))) < 16777205.

(* the packets [ps] are all that is received when replicate() succeeds *)
Definition talk_ok (bl : build) (ev : env) (st : settings) (o : options) (ps : list packet) (o' : options) (ck : Events.checksum) : Prop :=
  exists p1 p2 p3 pr, ps = p1 ++ p2 ++ p3 /\ login_ok bl ev st p1 pr /\ sums_ok o p2 o' ck /\ request_ok pr o' p3 /\ short_name o'.

(* the packets [ps] are all that is received when it panics *)
Inductive talk_stops (bl : build) (ev : env) (st : settings) (o : options) (ps : list packet) : Prop :=
| ts_empty k s : ps = k ++ [([], s)] -> talk_stops bl ev st o ps
(* the number of the greeting, of the answer to the login, of the answer to the switch *)
| ts_number g h : ps = [g] -> not_byte 0xFF (fst g) -> greets (fst g) h -> known (hs_plugin h) -> ~ counts bl (snd g) -> talk_stops bl ev st o ps
| ts_number2 g h a : ps = [g; a] -> greeted bl g h -> plain st h -> (goes_on (fst a) \/ exists n s, switches (fst a) n s) -> ~ counts bl (snd a) -> talk_stops bl ev st o ps
| ts_number3 g h a scramble b : ps = [g; a; b] -> greeted bl g h -> plain st h -> switches (fst a) (tx "caching_sha2_password") scramble -> counts bl (snd a) ->
    not_byte 0xFF (fst b) -> ~ counts bl (snd b) -> talk_stops bl ev st o ps
(* SSL is offered and wanted *)
| ts_ssl g h : ps = [g] -> greeted bl g h -> s_ssl st <> Disabled -> N.testbit (hs_capabilities h) 11 = true -> talk_stops bl ev st o ps
(* a confirmation that is cut off, an empty scramble, the number of the key *)
| ts_sha g h a rs : ps = g :: a :: rs -> greeted bl g h -> plain st h -> goes_on (fst a) -> counts bl (snd a) -> sha_stops bl ev st (hs_scramble h) (a :: rs) -> talk_stops bl ev st o ps
| ts_sha2 g h a scramble b rs : ps = g :: a :: b :: rs -> greeted bl g h -> plain st h -> switches (fst a) (tx "caching_sha2_password") scramble -> counts bl (snd a) ->
    not_byte 0xFF (fst b) -> counts bl (snd b) -> sha_stops bl ev st scramble (b :: rs) -> talk_stops bl ev st o ps
(* a cell of 2^63 bytes or more, a position without a file and offset, no checksum *)
| ts_cell login pr rs rows p : ps = login ++ rs ++ [p] -> login_ok bl ev st login pr -> at_end o -> rows_open rs rows -> not_byte 0xFF (fst p) -> not_byte 0xFE (fst p) -> row_huge (fst p) -> talk_stops bl ev st o ps
| ts_cell2 login pr qs o' rs rows p : ps = login ++ qs ++ rs ++ [p] -> login_ok bl ev st login pr -> started o qs o' -> rows_open rs rows -> not_byte 0xFF (fst p) -> not_byte 0xFE (fst p) -> row_huge (fst p) -> talk_stops bl ev st o ps
| ts_one_cell login pr rs file : ps = login ++ rs -> login_ok bl ev st login pr -> at_end o -> rows_are rs [[file]] -> talk_stops bl ev st o ps
| ts_no_row login pr qs o' rs : ps = login ++ qs ++ rs -> login_ok bl ev st login pr -> started o qs o' -> rows_are rs [] -> talk_stops bl ev st o ps
(* a file name with which the request for the events does not fit into a packet *)
| ts_long login pr qs o' ck rs : ps = login ++ qs ++ rs -> login_ok bl ev st login pr -> sums_ok o qs o' ck -> request_ok pr o' rs -> ~ short_name o' -> talk_stops bl ev st o ps.

(* ---- what is left in the client, however the attempt ends ---- *)
(* among the packets received, after the login, a complete status of one row *)
Definition told (bl : build) (ev : env) (st : settings) (o : options) (ps : list packet) (file : text) (cells : list text) : Prop :=
  exists login pr rs more, ps = login ++ rs ++ more /\ login_ok bl ev st login pr /\ at_end o /\ rows_are rs [file :: cells].
(* the second cell where it is a number below 2^32, else what was there before *)
Definition new_pos (o : options) (cells : list text) (pos : N) : Prop :=
  (exists ptext r, cells = ptext :: r /\ number (2 ^ 32) ptext pos) \/ ((forall ptext r n, cells = ptext :: r -> ~ number (2 ^ 32) ptext n) /\ pos = o_pos o).
Definition left_options (bl : build) (ev : env) (st : settings) (o : options) (ps : list packet) (o' : options) : Prop :=
  (exists file cells pos, told bl ev st o ps file cells /\ new_pos o cells pos /\ o' = Options file pos (o_set o) (o_list o) (o_strategy o)) \/
  ((forall file cells, ~ told bl ev st o ps file cells) /\ o' = o).
Definition left_client (bl : build) (ev : env) (st : settings) (c : client) (ps : list packet) (c' : client) : Prop :=
  (exists login pr more o', ps = login ++ more /\ login_ok bl ev st login pr /\ left_options bl ev st (c_opts c) ps o' /\ c' = Client o' false None None) \/
  ((forall login pr more, ps = login ++ more -> ~ login_ok bl ev st login pr) /\ c' = c).
