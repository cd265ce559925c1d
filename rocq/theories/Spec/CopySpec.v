(* Tables on the server, the changes its row events report, and a program that keeps a copy by applying the events it gets. *)
From Coq Require Import Sorting.Permutation.
From Verif Require Import Base.Tac Base.Bytes Base.Text Model.Values Model.TableMap Model.Rows Model.Events Model.Client
  Spec.EventSpec Spec.TableSpec Spec.RowSpec Spec.ClientSpec Spec.ChannelSpec Spec.PipelineSpec.
Local Open Scope N_scope.

(* a table's name: database and table; the tables with their rows (in no particular order) *)
Notation tname := (text * text)%type.
Definition database := tname -> list row.
Definition same_name (a b : tname) : bool := text_eqb (fst a) (fst b) && text_eqb (snd a) (snd b).
Definition with_rows (d : database) (n : tname) (rows : list row) : database := fun m => if same_name m n then rows else d m.

(* ---- what the server does ---- *)
(* row [r] has the values of the image [img] in the columns the image contains *)
Fixpoint matches (mask : list bool) (img r : row) : Prop :=
  match mask, img, r with
  | [], [], [] => True
  | m :: ms, i :: is, x :: xs => (m = true -> x = i) /\ matches ms is xs
  | _, _, _ => False
  end.
(* outside the columns of the mask the rows are the same *)
Fixpoint unchanged (mask : list bool) (r r' : row) : Prop :=
  match mask, r, r' with
  | [], [], [] => True
  | m :: ms, x :: xs, y :: ys => (m = false -> y = x) /\ unchanged ms xs ys
  | _, _, _ => False
  end.
(* The rows that match a before image are one row, or several that are the same in every column *)
Definition identifies (mask : list bool) (img r : row) (others : list row) : Prop :=
  matches mask img r /\ forall x, In x others -> matches mask img x -> x = r.
Inductive deletes (mask : list bool) : list row -> list row -> list row -> Prop :=
| de_nil t : deletes mask [] t t
| de_row img imgs a r b t : identifies mask img r (a ++ b) -> deletes mask imgs (a ++ b) t -> deletes mask (img :: imgs) (a ++ r :: b) t.
Inductive amends (before after : list bool) : list (row * row) -> list row -> list row -> Prop :=
| up_nil t : amends before after [] t t
| up_row img img' imgs a r r' b t : identifies before img r (a ++ b) -> matches after img' r' -> unchanged after r r' ->
    amends before after imgs (a ++ r' :: b) t -> amends before after ((img, img') :: imgs) (a ++ r :: b) t.
(* the change of a table that a row event reports; inserted rows are reported with all columns *)
Inductive changes : event -> list row -> list row -> Prop :=
| ch_insert e t : Forall (fun b => b = true) (re_present e) -> changes (EvWrite e) t (t ++ re_rows e)
| ch_delete e t t' : deletes (re_present e) (re_rows e) t t' -> changes (EvDelete e) t t'
| ch_update e t t' : amends (ue_before e) (ue_after e) (ue_rows e) t t' -> changes (EvUpdate e) t t'.
(* a server that writes the events to a connection: row events change the table described under their id, other events change no table *)
Inductive works : writer -> database -> list hev -> list packet -> writer -> database -> Prop :=
| wk_nil w d : works w d [] [] w d
| wk_other w d h e bs w1 s es ps w2 d2 : header_ok h -> writes w (h, e) bs w1 -> packet_ok (n2b 0 :: header_bytes h ++ bs, s) -> row_table e = None ->
    works w1 d es ps w2 d2 -> works w d ((h, e) :: es) ((n2b 0 :: header_bytes h ++ bs, s) :: ps) w2 d2
| wk_rows w d h e bs w1 s id t rows es ps w2 d2 : header_ok h -> writes w (h, e) bs w1 -> packet_ok (n2b 0 :: header_bytes h ++ bs, s) ->
    row_table e = Some id -> described w id = Some t -> changes e (d (t_db t, t_name t)) rows ->
    works w1 (with_rows d (t_db t, t_name t) rows) es ps w2 d2 -> works w d ((h, e) :: es) ((n2b 0 :: header_bytes h ++ bs, s) :: ps) w2 d2.

(* ---- a program that keeps a copy ---- *)
Definition cell_eq (a b : option value) : {a = b} + {a <> b}.
Proof. decide equality. decide equality; (apply N.eq_dec || apply (list_eq_dec N.eq_dec) || apply (list_eq_dec Bool.bool_dec) || apply (list_eq_dec Byte.byte_eq_dec) || (decide equality; (apply N.eq_dec || apply Z.eq_dec || apply Bool.bool_dec))). Defined.
Fixpoint agrees (mask : list bool) (img r : row) : bool :=
  match mask, img, r with
  | [], [], [] => true
  | m :: ms, i :: is, x :: xs => (if m then if cell_eq x i then true else false else true) && agrees ms is xs
  | _, _, _ => false
  end.
Fixpoint overwrite (mask : list bool) (img r : row) : row :=
  match mask, img, r with
  | m :: ms, i :: is, x :: xs => (if m then i else x) :: overwrite ms is xs
  | _, _, _ => r
  end.
(* the first row that fits is taken out or overwritten *)
Fixpoint take_out (mask : list bool) (img : row) (t : list row) : option (list row) :=
  match t with
  | [] => None
  | r :: t' => if agrees mask img r then Some t' else option_map (cons r) (take_out mask img t')
  end.
Fixpoint replace (before after : list bool) (img img' : row) (t : list row) : option (list row) :=
  match t with
  | [] => None
  | r :: t' => if agrees before img r then Some (overwrite after img' r :: t') else option_map (cons r) (replace before after img img' t')
  end.
Fixpoint take_out_all (mask : list bool) (imgs : list row) (t : list row) : option (list row) :=
  match imgs with [] => Some t | i :: r => match take_out mask i t with Some t' => take_out_all mask r t' | None => None end end.
Fixpoint replace_all (before after : list bool) (imgs : list (row * row)) (t : list row) : option (list row) :=
  match imgs with [] => Some t | (i, j) :: r => match replace before after i j t with Some t' => replace_all before after r t' | None => None end end.
Definition apply_rows (e : event) (t : list row) : option (list row) :=
  match e with
  | EvWrite r => if forallb (fun b => b) (re_present r) then Some (t ++ re_rows r) else None
  | EvDelete r => take_out_all (re_present r) (re_rows r) t
  | EvUpdate u => replace_all (ue_before u) (ue_after u) (ue_rows u) t
  | _ => Some t
  end.
(* it remembers the names of the table maps handed out and looks the ids of row events up *)
Record copy := Copy { cp_names : list (N * tname); cp_data : database }.
Definition name_of (c : copy) (id : N) : option tname := option_map snd (find (fun x => fst x =? id) (cp_names c)).
Definition apply_event (c : copy) (e : event) : option copy :=
  match e, row_table e with
  | EvTableMap t, _ => Some (Copy ((tb_id t, (tb_database t, tb_table t)) :: cp_names c) (cp_data c))
  | _, Some id =>
    match name_of c id with
    | Some n => match apply_rows e (cp_data c n) with Some rows => Some (Copy (cp_names c) (with_rows (cp_data c) n rows)) | None => None end
    | None => None
    end
  | _, None => Some c
  end.
Fixpoint apply_events (c : copy) (es : list event) : option copy :=
  match es with [] => Some c | e :: r => match apply_event c e with Some c' => apply_events c' r | None => None end end.
(* every table has the same rows *)
Definition alike (c d : database) : Prop := forall n, Permutation (c n) (d n).

(* ---- over connections: the server's transactions one after the other, each with its own table maps ---- *)
Definition naming := N -> option tname.
Definition no_names : naming := fun _ => None.
Definition with_name (f : naming) (t : table_map) : naming := fun id => if tb_id t =? id then Some (tb_database t, tb_table t) else f id.
Inductive alters : naming -> database -> list event -> database -> Prop :=
| al_nil f d : alters f d [] d
| al_map f d t es d2 : alters (with_name f t) d es d2 -> alters f d (EvTableMap t :: es) d2
| al_rows f d e id n rows es d2 : row_table e = Some id -> f id = Some n -> changes e (d n) rows -> alters f (with_rows d n rows) es d2 -> alters f d (e :: es) d2
| al_other f d e es d2 : row_table e = None -> (forall t, e <> EvTableMap t) -> alters f d es d2 -> alters f d (e :: es) d2.
(* transactions one after the other, each by its events *)
Inductive executes : database -> list (list event) -> database -> Prop :=
| ex_nil d : executes d [] d
| ex_txn d t d1 ts d2 : alters no_names d t d1 -> executes d1 ts d2 -> executes d (t :: ts) d2.
(* a program that applies a transaction once all of its events have been handed out *)
Definition apply_txn (d : database) (t : list event) : option database := option_map cp_data (apply_events (Copy [] d) t).
Fixpoint apply_txns (d : database) (ts : list (list event)) : option database :=
  match ts with [] => Some d | t :: r => match apply_txn d t with Some d' => apply_txns d' r | None => None end end.
Definition txn_changes (t : txn) : list event := map snd (txn_events t).
