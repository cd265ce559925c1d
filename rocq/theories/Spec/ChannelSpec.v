(* The MySQL wire protocol: packets, server errors, the initial handshake, the event stream. *)
From Coq Require Import Strings.String.
From Verif Require Import Base.Tac Base.Bytes Base.Text Base.Res Model.Events Model.Channel Spec.EventSpec.
Local Open Scope N_scope.

(* a packet on the wire: length in 3 bytes, sequence number, body *)
Notation packet := (list byte * N)%type.
Definition wire (p : packet) : list byte := le_enc 3 (N.of_nat (length (fst p))) ++ [n2b (snd p)] ++ fst p.
Definition packet_ok (p : packet) : Prop := N.of_nat (length (fst p)) < 16777216 /\ snd p < 256.

(* bytes that arrive, and: no read time-out among them *)
Definition in_bytes (cs : list portion) : list byte := flat_map (fun c => match c with Got bs => bs | _ => [] end) cs.
(* the error that a call of read(2) ends with *)
Definition trouble (x : portion) : option iokind := match x with Got _ => None | Stall => Some TimedOut | Broke => Some OtherIo end.
Definition flowing (cs : list portion) : Prop := Forall (fun c => c <> Stall /\ c <> Broke) cs.

(* reading k packets one after the other *)
Fixpoint read_many (k : nat) (cs : list portion) : res (list packet) * list portion :=
  match k with
  | O => (Ok [], cs)
  | S k' =>
    match read_packet cs with
    | (Ok p, cs') => match read_many k' cs' with (Ok ps, cs2) => (Ok (p :: ps), cs2) | (r, cs2) => (r, cs2) end
    | (Err e, cs') => (Err e, cs')
    | (Panic, cs') => (Panic, cs')
    | (Diverge, cs') => (Diverge, cs')
    end
  end.

(* ERR packet: 0xFF, code, optionally '#' and five characters of SQL state, message *)
Definition error_body (code : N) (state : option text) (msg : text) : list byte :=
  le_enc 2 code ++ match state with Some s => n2b 35 :: utf8_encode s | None => [] end ++ utf8_encode msg.
Definition error_ok (code : N) (state : option text) (msg : text) : Prop :=
  code < 65536 /\ valid_text msg /\
  match state with Some s => valid_text s /\ length s = 5%nat | None => forall m, msg <> 35 :: m end.

(* initial handshake (protocol 10): version, connection id, scramble part 1, capabilities (low), character set, status,
   capabilities (high), length of the scramble, 10 reserved bytes (MariaDB: the last 4 are further capabilities),
   scramble part 2, plugin name *)
Record hello := Hello { he_protocol : N; he_version : text; he_id : N; he_part1 : text; he_caps : N; he_charset : N; he_status : N;
  he_length : N; he_reserved : text; he_more : N; he_part2 : text; he_plugin : text }.
Definition cstring (t : text) : list byte := utf8_encode t ++ [n2b 0].
Definition secure (h : hello) : bool := N.testbit (he_caps h) 15.
Definition plugin_auth (h : hello) : bool := N.testbit (he_caps h) 19.
Definition hello_bytes (h : hello) : list byte :=
  le_enc 1 (he_protocol h) ++ cstring (he_version h) ++ le_enc 4 (he_id h) ++ cstring (he_part1 h) ++
  le_enc 2 (he_caps h mod 65536) ++ le_enc 1 (he_charset h) ++ le_enc 2 (he_status h) ++ le_enc 2 (he_caps h / 65536) ++
  le_enc 1 (he_length h) ++ utf8_encode (he_reserved h) ++ le_enc 4 (he_more h) ++
  (if secure h then cstring (he_part2 h) else []) ++ (if plugin_auth h then cstring (he_plugin h) else []).
Definition cstring_ok (t : text) : Prop := valid_text t /\ ~ In 0 t.
Definition hello_ok (h : hello) : Prop :=
  he_protocol h < 256 /\ cstring_ok (he_version h) /\ he_id h < 4294967296 /\ cstring_ok (he_part1 h) /\ he_caps h < 4294967296 /\
  he_charset h < 256 /\ he_status h < 65536 /\ he_length h < 256 /\ length (he_reserved h) = 6%nat /\ Forall (fun c => c < 128) (he_reserved h) /\
  he_more h < 4294967296 /\ cstring_ok (he_part2 h) /\ cstring_ok (he_plugin h).

(* what the server says in the event stream *)
Inductive said :=
| SEvent (h : header) (payload : list byte)
| SError (code : N) (state : option text) (msg : text)
| SOther (status : N) (data : list byte).
Definition said_body (s : said) : list byte :=
  match s with
  | SEvent h p => n2b 0 :: header_bytes h ++ p
  | SError c st m => n2b 255 :: error_body c st m
  | SOther b d => n2b b :: d
  end.
Definition said_ok (s : said) : Prop :=
  match s with
  | SEvent h _ => header_ok h
  | SError c st m => error_ok c st m
  | SOther b _ => 0 < b < 254
  end.
(* what the iterator hands out for it; an event that fails to decode leaves the decoder unchanged *)
Notation seen := (header * event + error)%type.
Inductive streamed (bl : build) : pstate -> list said -> list seen -> pstate -> Prop :=
| st_nil st : streamed bl st [] [] st
| st_event st h p e st' ss is st2 : parse_event bl st h p = Ok (e, st') -> streamed bl st' ss is st2 ->
    streamed bl st (SEvent h p :: ss) (inl (h, e) :: is) st2
| st_bad st h p er ss is st2 : parse_event bl st h p = Err er -> streamed bl st ss is st2 ->
    streamed bl st (SEvent h p :: ss) (inr er :: is) st2
| st_error st c s m ss is st2 : streamed bl st ss is st2 ->
    streamed bl st (SError c s m :: ss) (inr (EServer (tx "Event stream error.") c m s) :: is) st2
| st_other st b d ss is st2 : streamed bl st ss is st2 ->
    streamed bl st (SOther b d :: ss) (inr (EString (tx "Unknown network stream status")) :: is) st2.
(* calls of next() one after the other *)
Inductive takes (bl : build) : stream -> list seen -> stream -> Prop :=
| ta_nil s : takes bl s [] s
| ta_item s i s1 is s2 : stream_next bl s = (Ok (Some i), s1) -> takes bl s1 is s2 -> takes bl s (i :: is) s2.

(* ---- writing ---- *)
(* the answers with which n bytes are taken: short writes are continued, interrupted ones repeated *)
Inductive gone : nat -> list wrote -> Prop :=
| g_last n k : (0 < n <= k)%nat -> gone n [Took k]
| g_part n k us : (0 < k < n)%nat -> gone (n - k) us -> gone n (Took k :: us)
| g_again n us : gone n us -> gone n (Signal :: us).
(* the answers after t of the n bytes, the last of which is an error or that nothing was taken *)
Inductive stuck : nat -> list wrote -> nat -> Prop :=
| s_zero n : (0 < n)%nat -> stuck n [Took 0] 0
| s_fail n : (0 < n)%nat -> stuck n [Failed] 0
| s_part n k us t : (0 < k < n)%nat -> stuck (n - k) us t -> stuck n (Took k :: us) (k + t)
| s_again n us t : (0 < n)%nat -> stuck n us t -> stuck n (Signal :: us) t.
(* the answers after which a write never returns *)
Inductive waits : nat -> list wrote -> nat -> Prop :=
| w_nil n : (0 < n)%nat -> waits n [] 0
| w_part n k us t : (0 < k < n)%nat -> waits (n - k) us t -> waits n (Took k :: us) (k + t)
| w_again n us t : (0 < n)%nat -> waits n us t -> waits n (Signal :: us) t.
(* a packet: the three bytes of the length, the sequence number, and one write of the body, of which whatever is taken will do *)
Inductive fate := Whole | Refused | Blocked.
Inductive written : list wrote -> fate -> nat -> Prop :=
| wp_whole u1 u2 k : gone 3 u1 -> gone 1 u2 -> written (u1 ++ u2 ++ [Took k]) Whole (4 + k)
| wp_body u1 u2 o : gone 3 u1 -> gone 1 u2 -> o = Signal \/ o = Failed -> written (u1 ++ u2 ++ [o]) Refused 4
| wp_length u t : stuck 3 u t -> written u Refused t
| wp_number u1 u2 t : gone 3 u1 -> stuck 1 u2 t -> written (u1 ++ u2) Refused (3 + t)
| wp_waits u1 u2 : gone 3 u1 -> gone 1 u2 -> written (u1 ++ u2) Blocked 4
| wp_waits_length u t : waits 3 u t -> written u Blocked t
| wp_waits_number u1 u2 t : gone 3 u1 -> waits 1 u2 t -> written (u1 ++ u2) Blocked (3 + t).
