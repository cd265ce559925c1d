(* Table map events as the server writes them (MySQL: Table_map_log_event::write_data_body, save_field_metadata and
   init_metadata_fields). *)
From Verif Require Import Base.Tac Base.Bytes Base.Text Model.TableMap Spec.CodecSpec Spec.EventSpec.
Local Open Scope N_scope.

(* ---- per-column metadata ---- *)
Definition known_types : list N := [0; 1; 2; 3; 4; 5; 6; 7; 8; 9; 10; 11; 12; 13; 14; 15; 16; 17; 18; 19; 245; 246; 247; 248; 249; 250; 251; 252; 253; 254; 255].
Definition one_byte_meta : list N := [4; 5; 17; 18; 19; 245; 249; 250; 251; 252; 255].
Definition two_byte_meta : list N := [15; 16; 246; 253].
Definition real_type_meta : list N := [247; 248; 254].       (* real type and length, in this order *)
Definition has (ty : N) (l : list N) : bool := existsb (N.eqb ty) l.
Definition meta_bytes (ty m : N) : list byte :=
  if has ty one_byte_meta then le_enc 1 m
  else if has ty two_byte_meta then le_enc 2 m
  else if has ty real_type_meta then be_enc 2 m
  else [].
Definition meta_ok (ty m : N) : Prop :=
  if has ty one_byte_meta then u8 m
  else if has ty two_byte_meta then u16 m
  else if has ty real_type_meta then u16 m
  else m = 0.
Record column := Column { c_type : N; c_meta : N; c_nullable : bool }.
Definition column_ok (c : column) : Prop := In (c_type c) known_types /\ meta_ok (c_type c) (c_meta c).

(* ---- optional metadata ---- *)
Inductive mfield :=
| FUnsigned (flags pad : list bool)                  (* one flag per numeric column *)
| FDefaultCharset (default : N) (others : list (N * N))
| FColumnCharset (l : list N)
| FColumnName (l : list text)
| FSetValues (l : list (list text))
| FEnumValues (l : list (list text))
| FGeometry (l : list N)
| FSimpleKey (l : list N)
| FPrefixKey (l : list (N * N))
| FEnumSetDefaultCharset (default : N) (others : list (N * N))
| FEnumSetCharset (l : list N)
| FVisible (flags pad : list bool).                  (* one flag per column *)

(* flags, most significant bit of each byte first *)
Fixpoint bytes_msb (k : nat) (l : list bool) : list byte :=
  match k with O => [] | S k' => n2b (bits_val (rev (firstn 8 l))) :: bytes_msb k' (skipn 8 l) end.
Definition flag_bytes (flags pad : list bool) : list byte := bytes_msb (bitmap_len (length flags)) (flags ++ pad).
Definition str_bytes (t : text) : list byte := lenenc_short (N.of_nat (length (utf8_encode t))) ++ utf8_encode t.
Definition pair_bytes (p : N * N) : list byte := lenenc_short (fst p) ++ lenenc_short (snd p).
Definition strs_bytes (l : list text) : list byte := lenenc_short (N.of_nat (length l)) ++ flat_map str_bytes l.

Definition field_code (f : mfield) : N :=
  match f with
  | FUnsigned _ _ => 1 | FDefaultCharset _ _ => 2 | FColumnCharset _ => 3 | FColumnName _ => 4 | FSetValues _ => 5
  | FEnumValues _ => 6 | FGeometry _ => 7 | FSimpleKey _ => 8 | FPrefixKey _ => 9 | FEnumSetDefaultCharset _ _ => 10
  | FEnumSetCharset _ => 11 | FVisible _ _ => 12
  end.
Definition field_payload (f : mfield) : list byte :=
  match f with
  | FUnsigned l pad | FVisible l pad => flag_bytes l pad
  | FDefaultCharset d l | FEnumSetDefaultCharset d l => lenenc_short d ++ flat_map pair_bytes l
  | FColumnCharset l | FGeometry l | FSimpleKey l | FEnumSetCharset l => flat_map lenenc_short l
  | FColumnName l => flat_map str_bytes l
  | FSetValues l | FEnumValues l => flat_map strs_bytes l
  | FPrefixKey l => flat_map pair_bytes l
  end.
Definition field_bytes (f : mfield) : list byte :=
  le_enc 1 (field_code f) ++ lenenc_short (N.of_nat (length (field_payload f))) ++ field_payload f.

Definition numeric_types : list N := [1; 2; 3; 4; 5; 8; 9; 246].
Definition flags_ok (n : nat) (flags pad : list bool) : Prop := length flags = n /\ padded flags pad.
Definition strs_ok (l : list text) : Prop := u64 (N.of_nat (length l)) /\ Forall text_fits l.
Definition field_ok (types : list N) (f : mfield) : Prop :=
  N.of_nat (length (field_payload f)) <= 9223372036854775807 /\
  match f with
  | FUnsigned l pad => flags_ok (length (filter (fun t => has t numeric_types) types)) l pad
  | FVisible l pad => flags_ok (length types) l pad
  | FDefaultCharset d l | FEnumSetDefaultCharset d l => u32 d /\ Forall (fun p => u32 (fst p) /\ u32 (snd p)) l
  | FColumnCharset l | FGeometry l | FSimpleKey l | FEnumSetCharset l => Forall u32 l
  | FColumnName l => Forall text_fits l
  | FSetValues l | FEnumValues l => Forall strs_ok l
  | FPrefixKey l => Forall (fun p => u32 (fst p) /\ u32 (snd p)) l
  end.

(* what the fields say: should a field be repeated, the last one counts *)
Definition last_of {A} (f : mfield -> option A) (fs : list mfield) : option A :=
  fold_left (fun acc x => match f x with Some a => Some a | None => acc end) fs None.
Definition metadata_of (fs : list mfield) : table_metadata :=
  {| tm_signedness := last_of (fun f => match f with FUnsigned l _ => Some l | _ => None end) fs;
     tm_default_charset := last_of (fun f => match f with FDefaultCharset d l => Some (DefaultCharset d l) | _ => None end) fs;
     tm_column_charsets := last_of (fun f => match f with FColumnCharset l => Some l | _ => None end) fs;
     tm_column_names := last_of (fun f => match f with FColumnName l => Some l | _ => None end) fs;
     tm_set_values := last_of (fun f => match f with FSetValues l => Some l | _ => None end) fs;
     tm_enum_values := last_of (fun f => match f with FEnumValues l => Some l | _ => None end) fs;
     tm_geometry_types := last_of (fun f => match f with FGeometry l => Some l | _ => None end) fs;
     tm_simple_keys := last_of (fun f => match f with FSimpleKey l => Some l | _ => None end) fs;
     tm_prefix_keys := last_of (fun f => match f with FPrefixKey l => Some l | _ => None end) fs;
     tm_enum_set_default_charset := last_of (fun f => match f with FEnumSetDefaultCharset d l => Some (DefaultCharset d l) | _ => None end) fs;
     tm_enum_set_charsets := last_of (fun f => match f with FEnumSetCharset l => Some l | _ => None end) fs;
     tm_visibility := last_of (fun f => match f with FVisible l _ => Some l | _ => None end) fs |}.

(* ---- the event ---- *)
Record table := Table { t_id : N; t_flags : N; t_db : text; t_name : text; t_cols : list column; t_pad : list bool; t_fields : list mfield }.
Definition name_bytes (t : text) : list byte := le_enc 1 (N.of_nat (length (utf8_encode t))) ++ utf8_encode t ++ [n2b 0].
Definition table_bytes (t : table) : list byte :=
  let metas := flat_map (fun c => meta_bytes (c_type c) (c_meta c)) (t_cols t) in
  le_enc 6 (t_id t) ++ le_enc 2 (t_flags t) ++ name_bytes (t_db t) ++ name_bytes (t_name t) ++
  lenenc_short (N.of_nat (length (t_cols t))) ++ map (fun c => n2b (c_type c)) (t_cols t) ++
  lenenc_short (N.of_nat (length metas)) ++ metas ++
  bitmap (map c_nullable (t_cols t)) (t_pad t) ++ flat_map field_bytes (t_fields t).
Definition name_ok (t : text) : Prop := valid_text t /\ u8 (N.of_nat (length (utf8_encode t))).
Definition table_ok (t : table) : Prop :=
  t_id t < 281474976710656 /\ name_ok (t_db t) /\ name_ok (t_name t) /\ Forall column_ok (t_cols t) /\
  N.of_nat (length (t_cols t)) <= 4611686018427387903 /\ padded (map c_nullable (t_cols t)) (t_pad t) /\
  Forall (field_ok (map c_type (t_cols t))) (t_fields t).
(* the decoded event *)
Definition table_map_of (t : table) : table_map :=
  {| tb_id := t_id t; tb_database := t_db t; tb_table := t_name t;
     tb_types := map c_type (t_cols t); tb_meta := map c_meta (t_cols t); tb_nullable := map c_nullable (t_cols t);
     tb_metadata := match t_fields t with [] => None | fs => Some (metadata_of fs) end |}.
