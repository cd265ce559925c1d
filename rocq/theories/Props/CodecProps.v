(* C34 - C37: length-encoded integers, bitmaps, strings *)
From Coq Require Import Strings.String.
From Verif Require Import Base.Tac Base.Bytes Base.Text Base.Res Base.Str Base.Parse Base.Loop Model.Codec Model.Events Spec.CodecSpec Proofs.CodecProofs.
Local Open Scope N_scope.

(* [runs p bs v]: p, started in front of bs wherever bs lies in the buffer, returns v and stops right after bs *)

(* ---- C34 ---- *)
Theorem C34_length_encoded_integers : forall n bs, lenenc n bs -> runs read_len_enc_num bs n.
Proof. exact runs_lenenc. Qed.
Print Assumptions C34_length_encoded_integers.
Theorem C34_every_number_has_an_encoding : forall n, n < 18446744073709551616 -> lenenc n (lenenc_short n).
Proof. exact lenenc_short_ok. Qed.
Print Assumptions C34_every_number_has_an_encoding.
Theorem C34_bad_markers : forall pre post,
  read_len_enc_num (pre ++ n2b 0xFB :: post) (length pre) = Err (EString (tx "Length encoded integer cannot be NULL.")) /\
  read_len_enc_num (pre ++ n2b 0xFF :: post) (length pre) = Err (EString (tx "Unexpected length-encoded integer: 255")).
Proof.
  intros pre post. unfold read_len_enc_num, pbind.
  pose proof (runs_u8_byte (n2b 0xFB) pre post) as E1. pose proof (runs_u8_byte (n2b 0xFF) pre post) as E2.
  cbn [app] in E1, E2. rewrite E1, E2, !b2n_n2b by lia. split; reflexivity.
Qed.
Print Assumptions C34_bad_markers.
(* and nothing else is ever returned: a number that was read was encoded *)
Theorem C34_only_encodings : forall buf pos n pos', read_len_enc_num buf pos = Ok (n, pos') ->
  exists bs, lenenc n bs /\ firstn (length bs) (skipn pos buf) = bs /\ pos' = (pos + length bs)%nat.
Proof. exact lenenc_inv. Qed.
Print Assumptions C34_only_encodings.
Example C34_example : lenenc 250 [n2b 0xFC; n2b 250; n2b 0] /\ lenenc 251 (lenenc_short 251) /\
  lenenc_short 251 = [n2b 0xFC; n2b 251; n2b 0] /\ lenenc 18446744073709551615 (lenenc_short 18446744073709551615) /\
  read_len_enc_num ([n2b 7] ++ lenenc_short 70000 ++ [n2b 9]) 1%nat = Ok (70000, 5%nat).
Proof.
  split; [change [n2b 0xFC; n2b 250; n2b 0] with (n2b 0xFC :: le_enc 2 250); now constructor|].
  split; [now apply lenenc_short_ok|]. split; [reflexivity|]. split; [now apply lenenc_short_ok|]. vm_compute. reflexivity.
Qed.

(* ---- C35 ---- *)
Theorem C35_column_bitmaps : forall bits pad, padded bits pad -> N.of_nat (length bits) <= 9223372036854775807 ->
  runs (read_bitmap_le (N.of_nat (length bits))) (bitmap bits pad) bits /\
  length (bitmap bits pad) = bitmap_len (length bits).
Proof. intros bits pad Hp Hl. split; [now apply runs_bitmap|apply bitmap_length]. Qed.
Print Assumptions C35_column_bitmaps.
Theorem C35_bitmaps_msb_first : forall bits pad, padded bits pad -> N.of_nat (length bits) <= 9223372036854775807 ->
  runs (read_bitmap_be (N.of_nat (length bits))) (bitmap_be bits pad) bits /\
  length (bitmap_be bits pad) = bitmap_len (length bits).
Proof. intros bits pad Hp Hl. split; [now apply runs_bitmap_be|apply be_enc_length]. Qed.
Print Assumptions C35_bitmaps_msb_first.
(* the encodings quantified over are all byte strings *)
Theorem C35_all_bytes : forall bs, exists bits, length bits = (8 * length bs)%nat /\ le_enc (length bs) (bits_val bits) = bs.
Proof. exact bitmap_of_bytes. Qed.
Print Assumptions C35_all_bytes.
Example C35_example : let bits := [true; false; true; true; false; false; false; false; false; true] in
  padded bits [true; true; false; false; false; true] /\ bitmap bits [true; true; false; false; false; true] = [n2b 13; n2b 142] /\
  read_bitmap_le 10 [n2b 13; n2b 142] 0%nat = Ok (bits, 2%nat) /\ read_bitmap_be 10 [n2b 142; n2b 13] 0%nat = Ok (bits, 2%nat).
Proof. cbv zeta. repeat split; vm_compute; reflexivity. Qed.

(* ---- C36 ---- *)
Theorem C36_text_iff_utf8 : forall bs t, from_utf8 bs = Ok t <-> valid_text t /\ utf8_encode t = bs.
Proof.
  intros bs t. unfold from_utf8. split.
  - destruct (utf8_decode bs) eqn:E; [|discriminate]. intros H. injection H as ->. now apply utf8_decode_sound.
  - intros [Hv <-]. now rewrite utf8_decode_encode.
Qed.
Print Assumptions C36_text_iff_utf8.
Theorem C36_other_bytes_rejected : forall bs, (~ exists t, valid_text t /\ utf8_encode t = bs) -> from_utf8 bs = Err EFromUtf8.
Proof.
  intros bs H. unfold from_utf8. destruct (utf8_decode bs) as [t|] eqn:E; [|reflexivity]. exfalso. apply H. exists t. now apply utf8_decode_sound.
Qed.
Print Assumptions C36_other_bytes_rejected.
Theorem C36_sized_strings : forall t, text_fits t ->
  runs (read_string (N.of_nat (length (utf8_encode t)))) (utf8_encode t) t /\
  forall bs, lenenc (N.of_nat (length (utf8_encode t))) bs -> runs read_len_enc_str (bs ++ utf8_encode t) t.
Proof. intros t Ht. split; [now apply runs_string|intros bs Hb; now apply runs_lenenc_str]. Qed.
Print Assumptions C36_sized_strings.
Theorem C36_sized_strings_sound : forall n buf pos t pos', read_string n buf pos = Ok (t, pos') ->
  valid_text t /\ utf8_encode t = firstn (N.to_nat n) (skipn pos buf) /\ pos' = (pos + N.to_nat n)%nat.
Proof.
  intros n buf pos t pos'. unfold read_string, pbind, read_bytes, rbind, alloc. destruct (isize_max <? n); [discriminate|].
  destruct (_ <? n); [discriminate|]. unfold lift. destruct (from_utf8 _) eqn:E; try discriminate. intros H. injection H as -> <-.
  apply C36_text_iff_utf8 in E. destruct E. auto.
Qed.
Print Assumptions C36_sized_strings_sound.
Example C36_example : from_utf8 (map n2b [0xC3; 0xA9; 0xF0; 0x9F; 0x98; 0x80]) = Ok [0xE9; 0x1F600] /\
  from_utf8 (map n2b [0xC0; 0x80]) = Err EFromUtf8 /\ from_utf8 (map n2b [0xED; 0xA0; 0x80]) = Err EFromUtf8 /\
  text_fits [0xE9; 0x1F600].
Proof.
  split; [vm_compute; reflexivity|]. split; [vm_compute; reflexivity|]. split; [vm_compute; reflexivity|].
  split; [repeat constructor|vm_compute; discriminate].
Qed.

(* ---- C37 ---- *)
(* full statement: additionally, an unterminated string does not lose characters; false, see below *)
Theorem C37_null_terminated_partial : forall t, valid_text t -> ~ In 0 t ->
  runs read_null_term_string (utf8_encode t ++ [n2b 0]) t.
Proof. exact runs_null_string. Qed.
Print Assumptions C37_null_terminated_partial.
Theorem C37_written_strings_read_back : forall t, valid_text t -> ~ In 0 t -> runs read_null_term_string (write_null_term_string t) t.
Proof. exact runs_null_string. Qed.
Print Assumptions C37_written_strings_read_back.
Theorem C37_unterminated_refuted : exists t, valid_text t /\ ~ In 0 t /\ t <> [] /\
  read_null_term_string (utf8_encode t) 0%nat = Ok (removelast t, length (utf8_encode t)).
Proof.
  exists (tx "mysql"). split; [repeat constructor|]. split; [vm_compute; intuition discriminate|]. split; [discriminate|]. vm_compute. reflexivity.
Qed.
Print Assumptions C37_unterminated_refuted.
(* what becomes of every unterminated string: it loses its last character if that is ASCII, and is refused otherwise *)
Theorem C37_unterminated : forall t c pre, valid_text (t ++ [c]) -> ~ In 0 (t ++ [c]) ->
  read_null_term_string (pre ++ utf8_encode (t ++ [c])) (length pre) =
  if c <? 128 then Ok (t, (length pre + length (utf8_encode (t ++ [c])))%nat) else Err EFromUtf8.
Proof. exact null_string_open. Qed.
Print Assumptions C37_unterminated.
Example C37_unterminated_example : valid_text (tx "caf" ++ [233]) /\ read_null_term_string (n2b 7 :: utf8_encode (tx "caf" ++ [233])) 1%nat = Err EFromUtf8.
Proof. split; [repeat constructor|]. vm_compute. reflexivity. Qed.
Example C37_example : valid_text (tx "mysql") /\ ~ In 0 (tx "mysql") /\
  read_null_term_string (utf8_encode (tx "mysql") ++ n2b 0 :: utf8_encode (tx "rest")) 0%nat = Ok (tx "mysql", 6%nat).
Proof. split; [repeat constructor|]. split; [vm_compute; intuition discriminate|]. vm_compute. reflexivity. Qed.
