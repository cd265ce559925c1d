(* Row events: src/events/row_events/row_parser.rs and {write,update,delete}_rows_event.rs *)
From Coq Require Import Strings.String.
From Verif Require Import Base.Tac Base.Bytes Base.Text Base.Res Base.Str Base.Parse Model.Codec Model.Values Model.Cells
  Model.TableMap.
Local Open Scope N_scope.

(* EventParser::table_map: HashMap<u64, TableMapEvent> as an association list; insert replaces *)
Definition tables := list (N * table_map).
Fixpoint tables_get (id : N) (ts : tables) : option table_map :=
  match ts with
  | [] => None
  | (k, t) :: r => if k =? id then Some t else tables_get id r
  end.
Fixpoint tables_put (id : N) (t : table_map) (ts : tables) : tables :=
  match ts with
  | [] => [(id, t)]
  | (k, u) :: r => if k =? id then (id, t) :: r else (k, u) :: tables_put id t r
  end.

(* row_parser.rs:18-20 *)
Definition table_map_not_found : text :=
  tx "No preceding TableMapEvent event was found for the row event. You possibly started replication in the middle of logical event group.".

(* row_parser.rs:79-95 *)
Definition parse_head (version : N) : parser (N * N * N) :=
  table_id <- read_u48 ;;
  flags <- read_u16 ;;
  (if version =? 2 then
     extra <- read_u16 ;; seek_cur (Z.of_N extra - 2)
   else ret tt) ;;;
  columns <- read_len_enc_num ;;
  ret (table_id, flags, columns).

(* row_parser.rs:187-189 *)
Definition bits_number (bm : list bool) : N := N.of_nat (length (filter (fun b => b) bm)).

(* row_parser.rs:107-126: the loop over the columns.  [present] and [nulls] are the not yet consumed parts of
   columns_present and null_bitmap: columns_present[i] is the head of [present] (panic when it is exhausted),
   null_bitmap[i - skipped_columns] the head of [nulls]. *)
Fixpoint parse_columns (bl : build) (types metas : list N) (present nulls : list bool) : parser row :=
  match types with
  | [] => ret []
  | ty :: types' =>
    match present with
    | [] => fun _ _ => Panic                                    (* columns_present[i] *)
    | false :: present' =>
      cells <- parse_columns bl types' (tl metas) present' nulls ;; ret (None :: cells)
    | true :: present' =>
      match nulls with
      | [] => fun _ _ => Panic                                  (* null_bitmap[i - skipped_columns] *)
      | true :: nulls' =>
        cells <- parse_columns bl types' (tl metas) present' nulls' ;; ret (None :: cells)
      | false :: nulls' =>
        match metas with
        | [] => fun _ _ => Panic                                (* column_metadata[i] *)
        | m :: metas' =>
          ct <- lift (coltype_from_code ty) ;;
          let '(ty2, m2) := match ct with CtString => actual_string_type ty m | _ => (ty, m) end in
          v <- parse_cell bl ty2 m2 ;;
          cells <- parse_columns bl types' metas' present' nulls' ;;
          ret (Some v :: cells)
        end
      end
    end
  end.
(* row_parser.rs:97-128 *)
Definition parse_row (bl : build) (t : table_map) (present : list bool) (cells_included : N) : parser row :=
  nulls <- read_bitmap_le cells_included ;;
  parse_columns bl (tb_types t) (tb_meta t) present nulls.

(* row_parser.rs:27-44 *)
Definition parse_row_list (bl : build) (ts : tables) (table_id : N) (present : list bool) : parser (list row) :=
  match tables_get table_id ts with
  | None => fail (EString table_map_not_found)
  | Some t => pwhile (parse_row bl t present (bits_number present))
  end.
(* row_parser.rs:46-77 *)
Definition parse_update_row_list (bl : build) (ts : tables) (table_id : N) (before after : list bool) : parser (list update_row) :=
  match tables_get table_id ts with
  | None => fail (EString table_map_not_found)
  | Some t => pwhile (b <- parse_row bl t before (bits_number before) ;;
                      a <- parse_row bl t after (bits_number after) ;; ret (b, a))
  end.

(* write_rows_event.rs:12-27, delete_rows_event.rs *)
Record rows_event := RowsEvent { re_table : N; re_flags : N; re_columns : N; re_present : list bool; re_rows : list row }.
(* update_rows_event.rs:13-31 *)
Record update_event := UpdateEvent { ue_table : N; ue_flags : N; ue_columns : N; ue_before : list bool; ue_after : list bool;
  ue_rows : list update_row }.

(* write_rows_event.rs:31-46, delete_rows_event.rs:31-46 *)
Definition parse_rows_event (bl : build) (ts : tables) (version : N) : parser rows_event :=
  '(id, flags, cols) <- parse_head version ;;
  present <- read_bitmap_le cols ;;
  rows <- parse_row_list bl ts id present ;;
  ret (RowsEvent id flags cols present rows).
(* update_rows_event.rs:35-59 *)
Definition parse_update_event (bl : build) (ts : tables) (version : N) : parser update_event :=
  '(id, flags, cols) <- parse_head version ;;
  before <- read_bitmap_le cols ;;
  after <- read_bitmap_le cols ;;
  rows <- parse_update_row_list bl ts id before after ;;
  ret (UpdateEvent id flags cols before after rows).
