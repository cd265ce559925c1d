(* How many bytes of an event the decoded data stands for (C79): a measure on the decoded events only. *)
From Verif Require Import Base.Tac Base.Bytes Base.Text Model.Gtid Model.GtidMaria Model.Values Model.TableMap Model.Rows Model.Events.
Local Open Scope nat_scope.

Definition bits_weight (bs : list bool) : nat := (length bs + 7) / 8.
Definition text_weight (t : text) : nat := length (utf8_encode t).
(* a value: a string with a length byte or more, a blob likewise; six characters of a decimal number take a byte at least *)
Definition value_weight (v : value) : nat :=
  match v with
  | VTinyInt _ | VYear _ | VEnum _ | VSet _ => 1
  | VSmallInt _ => 2
  | VMediumInt _ | VDate _ | VTime _ => 3
  | VInt _ | VFloat _ | VTimestamp _ => 4
  | VDateTime _ => 5
  | VBigInt _ | VDouble _ => 8
  | VDecimal t => (length t + 5) / 6
  | VString t => 1 + text_weight t
  | VBit bs => bits_weight bs
  | VBlob bs => 1 + length bs
  end.
Definition cell_weight (c : option value) : nat := match c with Some v => value_weight v | None => 0 end.
(* the NULL bitmap (one bit per column present) and the values *)
Definition row_weight (present : list bool) (r : row) : nat :=
  bits_weight (filter (fun b => b) present) + list_sum (map cell_weight r).
Definition opt_weight {A} (w : A -> nat) (o : option A) : nat := match o with Some a => w a | None => 0 end.
Definition strings_weight (l : list text) : nat := list_sum (map (fun t => 1 + text_weight t) l).
Definition charset_weight (d : default_charset) : nat := 1 + 2 * length (dc_map d).
Definition metadata_weight (m : table_metadata) : nat :=
  opt_weight bits_weight (tm_signedness m) + opt_weight charset_weight (tm_default_charset m) + opt_weight (@length N) (tm_column_charsets m) +
  opt_weight strings_weight (tm_column_names m) + opt_weight (fun l => list_sum (map (fun s => 1 + strings_weight s) l)) (tm_set_values m) +
  opt_weight (fun l => list_sum (map (fun s => 1 + strings_weight s) l)) (tm_enum_values m) + opt_weight (@length N) (tm_geometry_types m) +
  opt_weight (@length N) (tm_simple_keys m) + opt_weight (fun l : list (N * N) => 2 * length l) (tm_prefix_keys m) +
  opt_weight charset_weight (tm_enum_set_default_charset m) + opt_weight (@length N) (tm_enum_set_charsets m) + opt_weight bits_weight (tm_visibility m).
Definition table_weight (t : table_map) : nat :=
  text_weight (tb_database t) + text_weight (tb_table t) + length (tb_types t) + bits_weight (tb_nullable t) + opt_weight metadata_weight (tb_metadata t).
Definition event_weight (e : event) : nat :=
  match e with
  | EvUnknown => 0
  | EvWrite r | EvDelete r => bits_weight (re_present r) + list_sum (map (row_weight (re_present r)) (re_rows r))
  | EvUpdate u => bits_weight (ue_before u) + bits_weight (ue_after u) +
                  list_sum (map (fun p => row_weight (ue_before u) (fst p) + row_weight (ue_after u) (snd p)) (ue_rows u))
  | EvXid _ => 8
  | EvIntVar _ => 9
  | EvUserVar v => 5 + text_weight (uv_name v) + opt_weight (fun x => 10 + text_weight (vv_value x)) (uv_value v)
  | EvQuery q => 13 + length (q_status q) + text_weight (q_database q) + text_weight (q_sql q)
  | EvTableMap t => 8 + table_weight t
  | EvRotate r => 8 + text_weight (ro_file r)
  | EvRowsQuery t | EvHeartbeat t => text_weight t
  | EvFormat f => 2 + text_weight (fd_server f)
  | EvMySqlGtid _ => 25
  | EvPrevGtids s => 8 + list_sum (map (fun kv => 24 + 16 * length (us_ivs (snd kv))) s)
  | EvMariaGtid _ => 13
  | EvMariaGtidList l => 4 + 16 * length l
  end.
(* cells handed over *)
Definition event_cells (e : event) : nat :=
  match e with
  | EvWrite r | EvDelete r => list_sum (map (@length _) (re_rows r))
  | EvUpdate u => list_sum (map (fun p => length (fst p) + length (snd p)) (ue_rows u))
  | _ => 0
  end.
