(* Rows events as the server writes them (MySQL: Rows_log_event, pack_row). *)
From Verif Require Import Base.Tac Base.Bytes Base.Text Model.Values Model.TableMap Model.Rows Model.Events Spec.CodecSpec Spec.EventSpec
  Spec.CellSpec Spec.TableSpec.
Local Open Scope N_scope.

(* a value of a column of the given type and metadata, as in the table map.  CHAR, ENUM and SET columns have type
   254 there; CHAR metadata is packed since MySQL 5.5 and plain before *)
Inductive column_cell : N -> N -> value -> list byte -> Prop :=
| cc_plain ty m v bs : ty <> 254 -> cell ty m v bs -> column_cell ty m v bs
| cc_char len v bs : len < 1024 -> cell 254 len v bs -> column_cell 254 (char_metadata len) v bs
| cc_char_old len v bs : len < 256 -> cell 254 len v bs -> column_cell 254 len v bs
| cc_enum p v bs : p < 256 -> cell 247 p v bs -> column_cell 254 (enum_metadata p) v bs
| cc_set p v bs : p < 256 -> cell 248 p v bs -> column_cell 254 (set_metadata p) v bs.

(* a row image: every column is left out, NULL or has a value *)
Inductive field := Absent | Null | Val (v : value) (bs : list byte).
Inductive image_ok : list column -> list bool -> list field -> Prop :=
| im_nil : image_ok [] [] []
| im_absent c cs ps fs : image_ok cs ps fs -> image_ok (c :: cs) (false :: ps) (Absent :: fs)
| im_null c cs ps fs : image_ok cs ps fs -> image_ok (c :: cs) (true :: ps) (Null :: fs)
| im_val c cs ps v bs fs : column_cell (c_type c) (c_meta c) v bs -> image_ok cs ps fs ->
    image_ok (c :: cs) (true :: ps) (Val v bs :: fs).
Definition null_bits (fs : list field) : list bool :=
  flat_map (fun f => match f with Absent => [] | Null => [true] | Val _ _ => [false] end) fs.
Definition image_bytes (fs : list field) (pad : list bool) : list byte :=
  bitmap (null_bits fs) pad ++ flat_map (fun f => match f with Val _ bs => bs | _ => [] end) fs.
Definition image_row (fs : list field) : row :=
  map (fun f => match f with Val v _ => Some v | _ => None end) fs.

(* an image with the filling bits of its null bitmap *)
Definition image := (list field * list bool)%type.
Definition written (cs : list column) (ps : list bool) (i : image) : Prop :=
  image_ok cs ps (fst i) /\ padded (null_bits (fst i)) (snd i).
Definition written_bytes (i : image) : list byte := image_bytes (fst i) (snd i).

(* event head: version 2 has extra data, whose length field counts itself *)
Definition extra_bytes (version : N) (extra : list byte) : list byte :=
  if version =? 2 then le_enc 2 (2 + N.of_nat (length extra)) ++ extra else [].
Record rows := Rows { r_version : N; r_flags : N; r_extra : list byte; r_present : list bool; r_pad : list bool; r_images : list image }.
Definition head_bytes (t : table) (version flags : N) (extra : list byte) : list byte :=
  le_enc 6 (t_id t) ++ le_enc 2 flags ++ extra_bytes version extra ++ lenenc_short (N.of_nat (length (t_cols t))).
Definition rows_bytes (t : table) (r : rows) : list byte :=
  head_bytes t (r_version r) (r_flags r) (r_extra r) ++ bitmap (r_present r) (r_pad r) ++ flat_map written_bytes (r_images r).
Definition rows_ok (t : table) (r : rows) : Prop :=
  table_ok t /\ u16 (r_flags r) /\ u16 (2 + N.of_nat (length (r_extra r))) /\ padded (r_present r) (r_pad r) /\
  length (r_present r) = length (t_cols t) /\ Forall (written (t_cols t) (r_present r)) (r_images r).
Definition rows_event_of (t : table) (r : rows) : rows_event :=
  {| re_table := t_id t; re_flags := r_flags r; re_columns := N.of_nat (length (t_cols t)); re_present := r_present r;
     re_rows := map (fun i => image_row (fst i)) (r_images r) |}.

Record updates := Updates { u_version : N; u_flags : N; u_extra : list byte; u_before : list bool; u_bpad : list bool;
  u_after : list bool; u_apad : list bool; u_images : list (image * image) }.
Definition updates_bytes (t : table) (u : updates) : list byte :=
  head_bytes t (u_version u) (u_flags u) (u_extra u) ++ bitmap (u_before u) (u_bpad u) ++ bitmap (u_after u) (u_apad u) ++
  flat_map (fun p => written_bytes (fst p) ++ written_bytes (snd p)) (u_images u).
Definition updates_ok (t : table) (u : updates) : Prop :=
  table_ok t /\ u16 (u_flags u) /\ u16 (2 + N.of_nat (length (u_extra u))) /\ padded (u_before u) (u_bpad u) /\ padded (u_after u) (u_apad u) /\
  length (u_before u) = length (t_cols t) /\ length (u_after u) = length (t_cols t) /\
  Forall (fun p => written (t_cols t) (u_before u) (fst p) /\ written (t_cols t) (u_after u) (snd p)) (u_images u).
Definition update_event_of (t : table) (u : updates) : update_event :=
  {| ue_table := t_id t; ue_flags := u_flags u; ue_columns := N.of_nat (length (t_cols t)); ue_before := u_before u; ue_after := u_after u;
     ue_rows := map (fun p => (image_row (fst (fst p)), image_row (fst (snd p)))) (u_images u) |}.

(* the six type codes *)
Inductive row_event (t : table) : N -> event -> list byte -> Prop :=
| rw_write1 r : rows_ok t r -> r_version r = 1 -> row_event t 23 (EvWrite (rows_event_of t r)) (rows_bytes t r)
| rw_update1 u : updates_ok t u -> u_version u = 1 -> row_event t 24 (EvUpdate (update_event_of t u)) (updates_bytes t u)
| rw_delete1 r : rows_ok t r -> r_version r = 1 -> row_event t 25 (EvDelete (rows_event_of t r)) (rows_bytes t r)
| rw_write2 r : rows_ok t r -> r_version r = 2 -> row_event t 30 (EvWrite (rows_event_of t r)) (rows_bytes t r)
| rw_update2 u : updates_ok t u -> u_version u = 2 -> row_event t 31 (EvUpdate (update_event_of t u)) (updates_bytes t u)
| rw_delete2 r : rows_ok t r -> r_version r = 2 -> row_event t 32 (EvDelete (rows_event_of t r)) (rows_bytes t r).
(* every row image contains at least one column (of the before or the after image) *)
Definition some_column (e : event) : Prop :=
  match e with
  | EvWrite e | EvDelete e => In true (re_present e)
  | EvUpdate e => In true (ue_before e) \/ In true (ue_after e)
  | _ => True
  end.

(* the event without its rows *)
Definition rowless (e : event) : event :=
  match e with
  | EvWrite r => EvWrite (RowsEvent (re_table r) (re_flags r) (re_columns r) (re_present r) [])
  | EvDelete r => EvDelete (RowsEvent (re_table r) (re_flags r) (re_columns r) (re_present r) [])
  | EvUpdate u => EvUpdate (UpdateEvent (ue_table u) (ue_flags u) (ue_columns u) (ue_before u) (ue_after u) [])
  | e => e
  end.

(* ---- histories of parser calls; a failed call leaves the parser as it was ---- *)
From Verif Require Import Base.Res.
Inductive history (bl : build) : pstate -> list (header * list byte) -> list event -> pstate -> Prop :=
| hi_nil st : history bl st [] [] st
| hi_ok st h bs e st' l es st'' : parse_event bl st h bs = Ok (e, st') -> history bl st' l es st'' ->
    history bl st ((h, bs) :: l) (e :: es) st''
| hi_err st h bs er l es st'' : parse_event bl st h bs = Err er -> history bl st l es st'' ->
    history bl st ((h, bs) :: l) es st''.
(* the last table map for an id among the decoded events *)
Definition latest (id : N) (es : list event) (initial : option table_map) : option table_map :=
  fold_left (fun acc e => match e with EvTableMap t => if tb_id t =? id then Some t else acc | _ => acc end) es initial.
