(* Any binlog file of a server: also rows of tables described in an earlier file, and rows without any column. *)
From Verif Require Import Base.Tac Base.Bytes Base.Text Base.Res Model.Events Spec.EventSpec Spec.ReaderSpec Spec.ClientSpec Spec.PipelineSpec.
Local Open Scope N_scope.

(* [file_stored w es its fs w']: the events es are stored as fs; the reader of the file gets its *)
Inductive file_stored : writer -> list hev -> list (hev + error) -> list (header * list byte) -> writer -> Prop :=
| fs_nil w : file_stored w [] [] [] w
| fs_event w h e bs w1 es its fs w2 : header_ok h -> h_length h = 19 + N.of_nat (length bs) -> sends_out w (h, e) bs w1 -> file_stored w1 es its fs w2 ->
    file_stored w ((h, e) :: es) (shown w (h, e) :: its) ((h, bs) :: fs) w2.
