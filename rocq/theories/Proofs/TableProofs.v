(* Table map events decode to what the server wrote. *)
From Verif Require Import Base.Tac Base.Bytes Base.Text Base.Res Base.Str Base.Parse Base.Loop Model.Codec Model.Values Model.TableMap
  Spec.CodecSpec Spec.EventSpec Spec.TableSpec Proofs.CodecProofs Proofs.EventProofs.
Local Open Scope N_scope.

(* ---- small parts ---- *)
Lemma runs_short n : n < 18446744073709551616 -> runs read_len_enc_num (lenenc_short n) n.
Proof. intros H. now apply runs_lenenc, lenenc_short_ok. Qed.
Lemma short_nonempty n : n < 18446744073709551616 -> lenenc_short n <> [].
Proof. intros H. eapply lenenc_nonempty, lenenc_short_ok, H. Qed.
Lemma app_nonempty {A} (a b : list A) : a <> [] -> a ++ b <> [].
Proof. intros H E. now apply app_eq_nil in E. Qed.
Lemma text_fits_len t : text_fits t -> N.of_nat (length (utf8_encode t)) < 18446744073709551616.
Proof. intros [_ H]. lia. Qed.
Lemma runs_str t : text_fits t -> runs read_len_enc_str (str_bytes t) t.
Proof. intros H. apply runs_lenenc_str; [exact H|]. now apply lenenc_short_ok, text_fits_len. Qed.
Lemma str_nonempty t : text_fits t -> str_bytes t <> [].
Proof. intros H. now apply app_nonempty, short_nonempty, text_fits_len. Qed.

Lemma runs_int_array l : Forall u32 l -> runs_end parse_int_array (flat_map lenenc_short l) l.
Proof.
  intros H. rewrite <- (map_id l) at 2. unfold parse_int_array. apply (pwhile_runs _ lenenc_short (fun n => n)).
  eapply Forall_impl; [|exact H]. intros n Hn. unfold u32 in Hn. split; [apply short_nonempty; lia|].
  eapply runs_bind_last; [apply runs_short; lia|]. rewrite N.mod_small by (unfold u32max1; lia). apply runs_ret.
Qed.
Lemma runs_int_map l : Forall (fun p => u32 (fst p) /\ u32 (snd p)) l -> runs_end parse_int_map (flat_map pair_bytes l) l.
Proof.
  intros H. rewrite <- (map_id l) at 2. unfold parse_int_map. apply (pwhile_runs _ pair_bytes (fun n => n)).
  eapply Forall_impl; [|exact H]. intros [a b] [Ha Hb]. unfold u32 in *. cbn [fst snd] in *. unfold pair_bytes. cbn [fst snd].
  split; [apply app_nonempty, short_nonempty; lia|].
  eapply runs_bind; [apply runs_short; lia|]. eapply runs_bind_last; [apply runs_short; lia|].
  rewrite !N.mod_small by (unfold u32max1; lia). apply runs_ret.
Qed.
Lemma runs_string_array l : Forall text_fits l -> runs_end parse_string_array (flat_map str_bytes l) l.
Proof.
  intros H. rewrite <- (map_id l) at 2. unfold parse_string_array. apply (pwhile_runs _ str_bytes (fun n => n)).
  eapply Forall_impl; [|exact H]. intros t Ht. split; [now apply str_nonempty|now apply runs_str].
Qed.
Lemma runs_type_values l : Forall strs_ok l -> runs_end parse_type_values (flat_map strs_bytes l) l.
Proof.
  intros H. rewrite <- (map_id l) at 2. unfold parse_type_values. apply (pwhile_runs _ strs_bytes (fun n => n)).
  eapply Forall_impl; [|exact H]. intros ts [Hn Ht]. unfold u64 in Hn. unfold strs_bytes. split; [apply app_nonempty, short_nonempty; lia|].
  eapply runs_bind; [apply runs_short; lia|]. cbv beta. apply runs_ploop; [reflexivity|].
  eapply Forall_impl; [|exact Ht]. intros t H2. split; [now apply str_nonempty|now apply runs_str].
Qed.
Lemma runs_default_charset d l : u32 d -> Forall (fun p => u32 (fst p) /\ u32 (snd p)) l ->
  runs_end parse_default_charset (lenenc_short d ++ flat_map pair_bytes l) (DefaultCharset d l).
Proof.
  intros H1 H2. unfold u32 in H1. unfold parse_default_charset. eapply runs_end_bind; [apply runs_short; lia|].
  eapply runs_end_bind_last; [now apply runs_int_map|]. rewrite N.mod_small by (unfold u32max1; lia). apply runs_runs_end, runs_ret.
Qed.
Lemma bits_be_val l : length l = 8%nat -> bits_be (n2b (bits_val (rev l))) = l.
Proof.
  intros H. destruct l as [|b0 [|b1 [|b2 [|b3 [|b4 [|b5 [|b6 [|b7 [|]]]]]]]]]; try discriminate H.
  destruct b0, b1, b2, b3, b4, b5, b6, b7; reflexivity.
Qed.
Lemma bytes_msb_bits k l : length l = (8 * k)%nat -> flat_map bits_be (bytes_msb k l) = l.
Proof.
  revert l. induction k as [|k IH]; intros l H; cbn [bytes_msb flat_map].
  - destruct l; [reflexivity|discriminate H].
  - rewrite bits_be_val by (rewrite firstn_length; lia). rewrite IH by (rewrite skipn_length; lia). apply firstn_skipn.
Qed.
Lemma bytes_msb_length k l : length (bytes_msb k l) = k.
Proof. revert l. induction k as [|k IH]; intros l; cbn [bytes_msb length]; [reflexivity|]. now rewrite IH. Qed.
Lemma runs_flags flags pad n : padded flags pad -> N.of_nat (length flags) = n -> n <= isize_max ->
  runs (read_bitmap_reverted n) (flag_bytes flags pad) flags.
Proof.
  intros Hp <- Hm. unfold read_bitmap_reverted. eapply runs_bind_nil; [apply runs_lift, alloc_ok, Hm|].
  eapply runs_bind_last.
  - apply runs_read_bytes; [|unfold isize_max in *; lia]. unfold flag_bytes. rewrite bytes_msb_length, <- bitmap_len_N. lia.
  - unfold flag_bytes. rewrite bytes_msb_bits by exact Hp. rewrite Nat2N.id, firstn_app_exact. apply runs_ret.
Qed.

(* ---- metadata fields ---- *)
Lemma known_coltype ty : In ty known_types -> exists t, coltype_from_code ty = Ok t /\ is_numeric t = has ty numeric_types.
Proof.
  unfold known_types. cbn [In]. intros H. repeat (destruct H as [<-|H]; [eexists; split; reflexivity|]). contradiction.
Qed.
Lemma numeric_count_ok types : Forall (fun t => In t known_types) types ->
  numeric_count types = Ok (N.of_nat (length (filter (fun t => has t numeric_types) types))).
Proof.
  induction 1 as [|ty l H Hl IH]; [reflexivity|]. cbn [numeric_count filter].
  destruct (known_coltype ty H) as (t & -> & E). cbn [rbind]. rewrite IH. cbn [rbind]. rewrite E.
  destruct (has ty numeric_types); cbn [length]; f_equal; lia.
Qed.
Lemma runs_on_buffer {A} (p : parser A) bs v : runs_end p bs v -> runs (on_buffer bs p) [] v.
Proof. intros H. unfold on_buffer. apply runs_lift. specialize (H []). cbn [app length] in H. now rewrite H. Qed.

Definition set_field (m : table_metadata) (f : mfield) : table_metadata :=
  let '(TableMetadata f1 f2 f3 f4 f5 f6 f7 f8 f9 f10 f11 f12) := m in
  match f with
  | FUnsigned l _ => TableMetadata (Some l) f2 f3 f4 f5 f6 f7 f8 f9 f10 f11 f12
  | FDefaultCharset d l => TableMetadata f1 (Some (DefaultCharset d l)) f3 f4 f5 f6 f7 f8 f9 f10 f11 f12
  | FColumnCharset l => TableMetadata f1 f2 (Some l) f4 f5 f6 f7 f8 f9 f10 f11 f12
  | FColumnName l => TableMetadata f1 f2 f3 (Some l) f5 f6 f7 f8 f9 f10 f11 f12
  | FSetValues l => TableMetadata f1 f2 f3 f4 (Some l) f6 f7 f8 f9 f10 f11 f12
  | FEnumValues l => TableMetadata f1 f2 f3 f4 f5 (Some l) f7 f8 f9 f10 f11 f12
  | FGeometry l => TableMetadata f1 f2 f3 f4 f5 f6 (Some l) f8 f9 f10 f11 f12
  | FSimpleKey l => TableMetadata f1 f2 f3 f4 f5 f6 f7 (Some l) f9 f10 f11 f12
  | FPrefixKey l => TableMetadata f1 f2 f3 f4 f5 f6 f7 f8 (Some l) f10 f11 f12
  | FEnumSetDefaultCharset d l => TableMetadata f1 f2 f3 f4 f5 f6 f7 f8 f9 (Some (DefaultCharset d l)) f11 f12
  | FEnumSetCharset l => TableMetadata f1 f2 f3 f4 f5 f6 f7 f8 f9 f10 (Some l) f12
  | FVisible l _ => TableMetadata f1 f2 f3 f4 f5 f6 f7 f8 f9 f10 f11 (Some l)
  end.
Lemma runs_field types m f : Forall (fun t => In t known_types) types -> N.of_nat (length types) <= 4611686018427387903 ->
  field_ok types f -> runs (metadata_field types m) (field_bytes f) (set_field m f).
Proof.
  intros Ht Hn [Hl Hf]. unfold metadata_field, field_bytes.
  assert (Hc : 1 <= field_code f <= 12) by (destruct f; cbn [field_code]; lia).
  eapply runs_bind; [apply runs_u8; lia|]. cbv beta.
  eapply runs_bind_nil.
  { destruct ((1 <=? field_code f) && (field_code f <=? 12)) eqn:E; [apply runs_ret|lia]. }
  eapply runs_bind; [apply runs_short; lia|]. cbv beta.
  eapply runs_bind_last; [apply runs_read_bytes; [reflexivity|exact Hl]|]. cbv beta.
  destruct m as [f1 f2 f3 f4 f5 f6 f7 f8 f9 f10 f11 f12].
  assert (L : forall n, (n <= length types)%nat -> N.of_nat n <= isize_max) by (unfold isize_max; lia).
  destruct f; cbn [field_code field_payload set_field N.eqb Pos.eqb] in *.
  1: { eapply runs_bind_nil; [apply runs_lift, numeric_count_ok, Ht|]. destruct Hf as [Hf1 Hf2].
       eapply runs_bind_nil; [apply runs_on_buffer, runs_runs_end, runs_flags; [exact Hf2|now rewrite Hf1|]|apply runs_ret].
       apply L. clear. induction types as [|t l IH]; cbn [filter length]; [lia|]. destruct (has t numeric_types); cbn [length]; lia. }
  11: { destruct Hf as [Hf1 Hf2]. eapply runs_bind_nil; [apply runs_on_buffer, runs_runs_end, runs_flags; [exact Hf2|now rewrite Hf1|]|apply runs_ret]. apply L. lia. }
  all: (eapply runs_bind_nil; [apply runs_on_buffer|apply runs_ret]);
    first [now apply runs_int_array | now apply runs_string_array | now apply runs_type_values | now apply runs_int_map
          | destruct Hf; now apply runs_default_charset].
Qed.
Lemma field_nonempty f : field_bytes f <> [].
Proof. unfold field_bytes. discriminate. Qed.
Lemma runs_fields types fs : Forall (fun t => In t known_types) types -> N.of_nat (length types) <= 4611686018427387903 ->
  Forall (field_ok types) fs -> forall m fuel, (length fs <= fuel)%nat ->
  runs_end (metadata_loop fuel types m) (flat_map field_bytes fs) (fold_left set_field fs m).
Proof.
  intros Ht Hn. induction 1 as [|f fs Hf Hfs IH]; intros m fuel Hl pre; cbn [flat_map fold_left].
  - destruct fuel; cbn [metadata_loop]; rewrite app_nil_r, Nat.ltb_irrefl; cbn [length]; now rewrite Nat.add_0_r.
  - cbn [length] in Hl. destruct fuel as [|fuel]; [lia|]. cbn [metadata_loop]. rewrite !app_length.
    assert (0 < length (field_bytes f))%nat by (pose proof (field_nonempty f); destruct (field_bytes f); [congruence|cbn [length]; lia]).
    destruct (Nat.ltb_spec (length pre) (length pre + (length (field_bytes f) + length (flat_map field_bytes fs)))); [|lia].
    unfold pbind. rewrite (runs_field types m f Ht Hn Hf).
    specialize (IH (set_field m f) fuel ltac:(lia) (pre ++ field_bytes f)). rewrite <- app_assoc, app_length in IH. rewrite IH. f_equal. f_equal. lia.
Qed.
Definition last_from {A} (g : mfield -> option A) (fs : list mfield) (acc : option A) : option A :=
  fold_left (fun acc x => match g x with Some a => Some a | None => acc end) fs acc.
Lemma fold_fields_from fs f1 f2 f3 f4 f5 f6 f7 f8 f9 f10 f11 f12 :
  fold_left set_field fs (TableMetadata f1 f2 f3 f4 f5 f6 f7 f8 f9 f10 f11 f12) = TableMetadata
  (last_from (fun f => match f with FUnsigned l _ => Some l | _ => None end) fs f1)
  (last_from (fun f => match f with FDefaultCharset d l => Some (DefaultCharset d l) | _ => None end) fs f2)
  (last_from (fun f => match f with FColumnCharset l => Some l | _ => None end) fs f3)
  (last_from (fun f => match f with FColumnName l => Some l | _ => None end) fs f4)
  (last_from (fun f => match f with FSetValues l => Some l | _ => None end) fs f5)
  (last_from (fun f => match f with FEnumValues l => Some l | _ => None end) fs f6)
  (last_from (fun f => match f with FGeometry l => Some l | _ => None end) fs f7)
  (last_from (fun f => match f with FSimpleKey l => Some l | _ => None end) fs f8)
  (last_from (fun f => match f with FPrefixKey l => Some l | _ => None end) fs f9)
  (last_from (fun f => match f with FEnumSetDefaultCharset d l => Some (DefaultCharset d l) | _ => None end) fs f10)
  (last_from (fun f => match f with FEnumSetCharset l => Some l | _ => None end) fs f11)
  (last_from (fun f => match f with FVisible l _ => Some l | _ => None end) fs f12).
Proof.
  revert f1 f2 f3 f4 f5 f6 f7 f8 f9 f10 f11 f12. induction fs as [|f fs IH]; intros; [reflexivity|].
  unfold last_from in *. cbn [fold_left]. destruct f; cbn [set_field]; apply IH.
Qed.
Lemma fold_fields fs : fold_left set_field fs empty_metadata = metadata_of fs.
Proof. apply fold_fields_from. Qed.
Lemma runs_table_metadata types fs : Forall (fun t => In t known_types) types -> N.of_nat (length types) <= 4611686018427387903 ->
  Forall (field_ok types) fs -> runs_end (parse_table_metadata types) (flat_map field_bytes fs) (metadata_of fs).
Proof.
  intros H1 H2 H3 pre. unfold parse_table_metadata. rewrite <- fold_fields. apply runs_fields; try assumption.
  assert (length fs <= length (flat_map field_bytes fs))%nat.
  { apply flat_map_length_ge. apply Forall_forall. intros f _. apply field_nonempty. }
  rewrite app_length. lia.
Qed.

(* ---- columns ---- *)
Lemma runs_column_meta c : column_ok c -> runs (column_meta (c_type c)) (meta_bytes (c_type c) (c_meta c)) (c_meta c).
Proof.
  destruct c as [ty m b]. unfold column_ok. cbn [c_type c_meta]. intros [H1 H2]. unfold column_meta.
  unfold known_types in H1. cbn [In] in H1.
  repeat (destruct H1 as [<-|H1]; [eapply runs_bind_nil; [apply runs_lift; reflexivity|]; cbv beta iota;
    lazymatch goal with
    | |- runs read_u8 _ _ => exact (runs_u8 m H2)
    | |- runs read_u16 _ _ => exact (runs_u16 m H2)
    | |- runs (read_be 2) _ _ => refine (runs_read_be 2 m H2 _); unfold isize_max; lia
    | |- _ => change (m = 0) in H2; subst m; exact (runs_ret 0)
    end|]).
  contradiction.
Qed.
Lemma runs_columns_meta cs : Forall column_ok cs ->
  runs (columns_meta (map c_type cs)) (flat_map (fun c => meta_bytes (c_type c) (c_meta c)) cs) (map c_meta cs).
Proof.
  induction 1 as [|c cs H Hs IH]; cbn [map columns_meta flat_map]; [apply runs_ret|].
  eapply runs_bind; [now apply runs_column_meta|]. eapply runs_bind_last; [exact IH|]. apply runs_ret.
Qed.
Lemma meta_len ty m : (length (meta_bytes ty m) <= 2)%nat.
Proof. unfold meta_bytes. repeat destruct (has ty _); rewrite ?le_enc_length, ?be_enc_length; cbn [length]; lia. Qed.
Lemma metas_len cs : (length (flat_map (fun c => meta_bytes (c_type c) (c_meta c)) cs) <= 2 * length cs)%nat.
Proof. induction cs as [|c cs IH]; cbn [flat_map length]; [lia|]. rewrite app_length. pose proof (meta_len (c_type c) (c_meta c)). lia. Qed.

Lemma known_lt ty : In ty known_types -> ty < 256.
Proof. unfold known_types. cbn [In]. lia. Qed.
Lemma types_back cs : Forall column_ok cs -> map b2n (map (fun c => n2b (c_type c)) cs) = map c_type cs.
Proof.
  induction 1 as [|c cs [H _] Hs IH]; [reflexivity|]. cbn [map]. rewrite IH. f_equal. apply b2n_n2b. now apply known_lt.
Qed.

Lemma runs_table_map t : table_ok t -> runs_end parse_table_map (table_bytes t) (table_map_of t).
Proof.
  destruct t as [id fl db tn cs pad fs]. unfold table_ok, table_bytes, table_map_of.
  cbn [t_id t_flags t_db t_name t_cols t_pad t_fields]. intros (H1 & [H2 H2'] & [H3 H3'] & H4 & H5 & H6 & H7).
  unfold u8 in *. unfold parse_table_map, name_bytes. rewrite <- !app_assoc. rde.
  eapply runs_end_bind; [apply (runs_seek 2), le_enc_length|].
  rde. eapply runs_end_bind; [apply runs_string; [split; [exact H2|lia]|reflexivity]|]. eapply runs_end_bind; [apply (runs_seek 1); reflexivity|].
  rde. eapply runs_end_bind; [apply runs_string; [split; [exact H3|lia]|reflexivity]|]. eapply runs_end_bind; [apply (runs_seek 1); reflexivity|].
  eapply runs_end_bind; [apply runs_short; lia|]. cbv beta.
  eapply runs_end_bind; [apply runs_read_bytes; [now rewrite map_length|unfold isize_max; lia]|]. cbv beta zeta. rewrite types_back by exact H4.
  eapply runs_end_bind; [apply runs_short; pose proof (metas_len cs); lia|]. cbv beta.
  eapply runs_end_bind; [apply runs_columns_meta, H4|]. cbv beta.
  eapply runs_end_bind; [apply runs_bitmap; [exact H6|now rewrite map_length|unfold isize_max; lia]|]. cbv beta.
  assert (K : Forall (fun ty => In ty known_types) (map c_type cs)).
  { rewrite Forall_map. eapply Forall_impl; [|exact H4]. intros c [Hc _]. exact Hc. }
  intros pre. unfold pbind at 1, get_pos at 1. unfold pbind at 1, get_len at 1. rewrite app_length.
  destruct fs as [|f fs].
  - cbn [flat_map length]. rewrite Nat.add_0_r, Nat.ltb_irrefl. reflexivity.
  - pose proof (runs_table_metadata (map c_type cs) (f :: fs) K ltac:(rewrite map_length; lia) H7 pre) as R.
    assert (0 < length (flat_map field_bytes (f :: fs)))%nat.
    { cbn [flat_map]. rewrite app_length. pose proof (field_nonempty f). destruct (field_bytes f); [congruence|cbn [length]; lia]. }
    match goal with |- context [(?a <? ?b)%nat] => destruct (Nat.ltb_spec a b); [|lia] end.
    unfold pbind. rewrite R. reflexivity.
Qed.
