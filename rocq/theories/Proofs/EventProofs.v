(* Decoding of headers, service events, GTID events and format descriptions. *)
From Verif Require Import Base.Tac Base.Bytes Base.Text Base.Res Base.Str Base.Parse Base.Loop Model.Codec Model.Gtid
  Model.GtidMaria Model.Events Spec.CodecSpec Spec.EventSpec Spec.GtidSpec Proofs.CodecProofs Proofs.GtidSetProofs.
Local Open Scope N_scope.

Ltac unum := unfold u8, u16, u32, u64 in *.
Ltac runs_int := lazymatch goal with
  | |- runs read_u8 _ _ => apply runs_u8
  | |- runs read_u16 _ _ => apply runs_u16
  | |- runs read_u24 _ _ => apply runs_u24
  | |- runs read_u32 _ _ => apply runs_u32
  | |- runs read_u48 _ _ => apply runs_u48
  | |- runs read_u64 _ _ => apply runs_u64
  end; unum; first [assumption | lia].
Ltac rd := eapply runs_bind; [runs_int|cbv beta].
Ltac rdl := eapply runs_bind_last; [runs_int|cbv beta].
Ltac rde := eapply runs_end_bind; [runs_int|cbv beta].

(* ---- headers ---- *)
Lemma runs_header h : header_ok h -> runs header_parser (header_bytes h) h.
Proof.
  destruct h as [ts ty sv ln nx fl]. unfold header_ok, header_bytes, header_parser.
  cbn [h_timestamp h_type h_server h_length h_next h_flags]. intros (H1 & H2 & H3 & H4 & H5 & H6).
  do 5 rd. rdl. apply runs_ret.
Qed.
Lemma header_exact h rest : header_ok h -> parse_header (header_bytes h ++ rest) = Ok h.
Proof. intros H. unfold parse_header. pose proof (runs_header h H [] rest) as E. cbn [app length] in E. now rewrite E. Qed.
Lemma header_of_bytes bs : length bs = 19%nat -> exists h, header_ok h /\ header_bytes h = bs.
Proof.
  intros L.
  assert (S : forall k (l : list byte), (k <= length l)%nat -> exists a r, l = a ++ r /\ length a = k).
  { intros k l H. exists (firstn k l), (skipn k l). split; [symmetry; apply firstn_skipn|]. rewrite firstn_length. lia. }
  destruct (S 4%nat bs ltac:(lia)) as (a & r & -> & La). rewrite app_length in L.
  destruct (S 1%nat r ltac:(lia)) as (b & r2 & -> & Lb). rewrite app_length in L.
  destruct (S 4%nat r2 ltac:(lia)) as (c & r3 & -> & Lc). rewrite app_length in L.
  destruct (S 4%nat r3 ltac:(lia)) as (d & r4 & -> & Ld). rewrite app_length in L.
  destruct (S 4%nat r4 ltac:(lia)) as (e & r5 & -> & Le). rewrite app_length in L.
  assert (Lf : length r5 = 2%nat) by lia.
  exists (Header (le_dec a) (le_dec b) (le_dec c) (le_dec d) (le_dec e) (le_dec r5)).
  pose proof (le_dec_lt a). pose proof (le_dec_lt b). pose proof (le_dec_lt c). pose proof (le_dec_lt d).
  pose proof (le_dec_lt e). pose proof (le_dec_lt r5). rewrite La, Lb, Lc, Ld, Le, Lf in *.
  split; [unfold header_ok; unum; cbn [h_timestamp h_type h_server h_length h_next h_flags]; repeat split; assumption|].
  unfold header_bytes. cbn [h_timestamp h_type h_server h_length h_next h_flags].
  rewrite <- La at 1. rewrite <- Lb at 1. rewrite <- Lc at 1. rewrite <- Ld at 1. rewrite <- Le at 1. rewrite <- Lf at 1.
  now rewrite !le_enc_dec.
Qed.
Lemma read_le_short k buf pos : (0 < k)%nat -> (length buf < pos + k)%nat -> N.of_nat k <= isize_max -> read_le k buf pos = Err (EIo UnexpectedEof).
Proof.
  intros H0 H Hk. unfold read_le, pbind, read_bytes. rewrite alloc_ok by exact Hk. cbn [rbind].
  destruct (N.ltb_spec (N.of_nat (length buf - pos)) (N.of_nat k)); [reflexivity|lia].
Qed.
Lemma read_le_long k buf pos : (pos + k <= length buf)%nat -> N.of_nat k <= isize_max -> exists n, read_le k buf pos = Ok (n, (pos + k)%nat).
Proof.
  intros H Hk. unfold read_le, pbind, read_bytes. rewrite alloc_ok by exact Hk. cbn [rbind].
  destruct (N.ltb_spec (N.of_nat (length buf - pos)) (N.of_nat k)); [lia|]. eexists. unfold ret. f_equal. f_equal. lia.
Qed.
Lemma header_short bs : (length bs < 19)%nat -> parse_header bs = Err (EIo UnexpectedEof).
Proof.
  intros L. unfold parse_header, header_parser.
  assert (K : forall k, (k <= 19)%nat -> N.of_nat k <= isize_max) by (unfold isize_max; lia).
  unfold read_u32, read_u8, read_u16, pbind at 1.
  destruct (Nat.leb_spec (0 + 4) (length bs)); [|rewrite read_le_short by (lia || apply K; lia); reflexivity].
  destruct (read_le_long 4 bs 0 ltac:(lia) ltac:(apply K; lia)) as [n1 ->]. unfold pbind at 1.
  destruct (Nat.leb_spec (0 + 4 + 1) (length bs)); [|rewrite read_le_short by (lia || apply K; lia); reflexivity].
  destruct (read_le_long 1 bs (0 + 4) ltac:(lia) ltac:(apply K; lia)) as [n2 ->]. unfold pbind at 1.
  destruct (Nat.leb_spec (0 + 4 + 1 + 4) (length bs)); [|rewrite read_le_short by (lia || apply K; lia); reflexivity].
  destruct (read_le_long 4 bs (0 + 4 + 1) ltac:(lia) ltac:(apply K; lia)) as [n3 ->]. unfold pbind at 1.
  destruct (Nat.leb_spec (0 + 4 + 1 + 4 + 4) (length bs)); [|rewrite read_le_short by (lia || apply K; lia); reflexivity].
  destruct (read_le_long 4 bs (0 + 4 + 1 + 4) ltac:(lia) ltac:(apply K; lia)) as [n4 ->]. unfold pbind at 1.
  destruct (Nat.leb_spec (0 + 4 + 1 + 4 + 4 + 4) (length bs)); [|rewrite read_le_short by (lia || apply K; lia); reflexivity].
  destruct (read_le_long 4 bs (0 + 4 + 1 + 4 + 4) ltac:(lia) ltac:(apply K; lia)) as [n5 ->]. unfold pbind at 1.
  rewrite read_le_short by (lia || apply K; lia). reflexivity.
Qed.

(* ---- from parsers to parse_event ---- *)
Definition starts {A} (p : parser A) (bs : list byte) (v : A) : Prop := exists pos, p bs 0%nat = Ok (v, pos).
Lemma runs_starts {A} (p : parser A) bs v : runs p bs v -> starts p bs v.
Proof. intros H. exists (length bs). pose proof (H [] []) as E. cbn [app length] in E. now rewrite app_nil_r in E. Qed.
Lemma runs_starts_more {A} (p : parser A) bs more v : runs p bs v -> starts p (bs ++ more) v.
Proof. intros H. exists (length bs). exact (H [] more). Qed.
Lemma runs_end_starts {A} (p : parser A) bs v : runs_end p bs v -> starts p bs v.
Proof. intros H. exists (length bs). exact (H []). Qed.
Lemma starts_pmap {A B} (f : A -> B) p bs v : starts p bs v -> starts (pmap f p) bs (f v).
Proof. intros [pos E]. exists pos. unfold pmap, pbind. now rewrite E. Qed.
Lemma payload_of ck bs crc : trailer_ok ck crc -> event_payload ck (bs ++ crc) = Ok bs.
Proof.
  destruct ck; cbn [trailer_ok event_payload].
  - intros ->. now rewrite app_nil_r.
  - intros H. rewrite app_length, H. destruct (Nat.ltb_spec (length bs + 4) 4) as [|_]; [lia|].
    rewrite firstn_app_len by lia. reflexivity.
Qed.
Lemma parse_event_starts bl st h bs crc e : trailer_ok (ps_checksum st) crc ->
  starts (event_body bl (ps_tables st) h) bs e ->
  parse_event bl st h (bs ++ crc) = Ok (e, after_event st e).
Proof. intros Hc [pos E]. unfold parse_event. rewrite payload_of by exact Hc. cbn [rbind]. now rewrite E. Qed.

(* ---- service events ---- *)
Lemma runs_end_to_string t : valid_text t -> runs_end read_to_string (utf8_encode t) t.
Proof.
  intros H. unfold read_to_string. eapply runs_end_bind_last; [apply runs_end_rest|].
  rewrite utf8_decode_encode by exact H. apply runs_runs_end, runs_ret.
Qed.
Lemma runs_seek k bs : length bs = k -> runs (seek_cur (Z.of_nat k)) bs tt.
Proof.
  intros <- pre post. unfold seek_cur.
  destruct (Z.ltb_spec (Z.of_nat (length pre) + Z.of_nat (length bs)) 0); [lia|]. f_equal. f_equal. lia.
Qed.
Lemma runs_end_rotate r : rotate_ok r -> runs_end parse_rotate (rotate_bytes r) r.
Proof.
  destruct r as [f p]. unfold rotate_ok, rotate_bytes, parse_rotate. cbn [ro_file ro_pos]. intros [H1 H2].
  rde. eapply runs_end_bind_last; [now apply runs_end_to_string|]. apply runs_runs_end, runs_ret.
Qed.
Lemma runs_intvar v : intvar_ok v -> runs parse_intvar (intvar_bytes v) v.
Proof.
  destruct v as [t v]. unfold intvar_ok, intvar_bytes, parse_intvar. cbn [iv_type iv_value]. intros [H1 H2].
  rd. rdl. apply runs_ret.
Qed.
Lemma runs_end_query q : query_ok q -> runs_end parse_query (query_bytes q) q.
Proof.
  destruct q as [th du er st db sql]. unfold query_ok, query_bytes, parse_query.
  cbn [q_thread q_duration q_error q_status q_database q_sql]. intros (H1 & H2 & H3 & H4 & H5 & H6 & H7).
  do 5 rde. eapply runs_end_bind; [apply runs_read_bytes; [reflexivity|unum; unfold isize_max; lia]|].
  eapply runs_end_bind; [apply runs_string; [split; [exact H5|unum; lia]|reflexivity]|].
  eapply runs_end_bind; [apply (runs_seek 1); reflexivity|].
  eapply runs_end_bind_last; [now apply runs_end_to_string|]. apply runs_runs_end, runs_ret.
Qed.
Lemma runs_uservar u : uservar_ok u -> runs parse_uservar (uservar_bytes u) u.
Proof.
  destruct u as [name v]. unfold uservar_ok, uservar_bytes, uservar_raw, parse_uservar. cbn [uv_name uv_value].
  intros (H1 & H2 & H3). rd. eapply runs_bind; [apply runs_string; [split; [exact H1|unum; lia]|reflexivity]|].
  destruct v as [[ty co v fl]|]; cbn [vv_type vv_collation vv_value vv_flags] in *.
  - destruct H3 as (H3 & H4 & H5 & H6 & H7). eapply runs_bind; [apply runs_u8_byte|]. rewrite b2n_n2b by lia.
    cbn [N.eqb negb]. do 3 rd. eapply runs_bind; [apply runs_string; [split; [exact H6|unum; lia]|reflexivity]|].
    rdl. apply runs_ret.
  - eapply runs_bind_last; [apply runs_u8_byte|]. rewrite b2n_n2b by lia. cbn [N.eqb negb]. apply runs_ret.
Qed.
(* p, started in front of bs, fails *)
Definition fails {A} (p : parser A) (bs : list byte) (e : error) : Prop := forall pre post, p (pre ++ bs ++ post) (length pre) = Err e.
Lemma fails_first {A B} (p : parser A) (f : A -> parser B) b1 b2 e : fails p b1 e -> fails (pbind p f) (b1 ++ b2) e.
Proof. intros H pre post. unfold pbind. rewrite <- app_assoc, H. reflexivity. Qed.
Lemma fails_after {A B} (p : parser A) (f : A -> parser B) b1 b2 v e : runs p b1 v -> fails (f v) b2 e -> fails (pbind p f) (b1 ++ b2) e.
Proof.
  intros Hp Hf pre post. unfold pbind. rewrite <- app_assoc, Hp. specialize (Hf (pre ++ b1) post). rewrite <- app_assoc, app_length in Hf. exact Hf.
Qed.
Lemma fails_string bs n e : N.of_nat (length bs) = n -> n <= isize_max -> from_utf8 bs = Err e -> fails (read_string n) bs e.
Proof.
  intros L M E. rewrite <- (app_nil_r bs). unfold read_string. eapply fails_after; [apply runs_read_bytes; [exact L|exact M]|]. intros pre post. unfold lift. now rewrite E.
Qed.
Lemma fails_uservar name ty co bs fl e : valid_text name -> u32 (N.of_nat (length (utf8_encode name))) -> u8 ty -> u32 co -> u32 (N.of_nat (length bs)) ->
  from_utf8 bs = Err e -> fails parse_uservar (uservar_raw name (Some (ty, co, bs, fl))) e.
Proof.
  intros H1 H2 H3 H4 H5 E. unfold uservar_raw, parse_uservar.
  eapply fails_after; [runs_int|cbv beta]. eapply fails_after; [apply runs_string; [split; [exact H1|unum; lia]|reflexivity]|].
  eapply fails_after; [apply runs_u8_byte|]. rewrite b2n_n2b by lia. cbn [N.eqb negb].
  do 3 (eapply fails_after; [runs_int|cbv beta]). apply fails_first, fails_string; [reflexivity|unum; unfold isize_max; lia|exact E].
Qed.
Lemma service_starts bl ts h e ty bs : service e ty bs -> h_type h = ty -> starts (event_body bl ts h) bs e.
Proof.
  intros Hs Hh. unfold event_body. rewrite Hh.
  destruct Hs; cbn [N.eqb Pos.eqb]; apply starts_pmap.
  - now apply runs_end_starts, runs_end_rotate.
  - apply runs_starts, runs_u64. exact H.
  - now apply runs_starts, runs_intvar.
  - now apply runs_end_starts, runs_end_to_string.
  - apply runs_end_starts. unfold parse_rows_query_mysql. change (b :: utf8_encode t) with ([b] ++ utf8_encode t).
    eapply runs_end_bind; [apply (runs_seek 1); reflexivity|]. now apply runs_end_to_string.
  - now apply runs_end_starts, runs_end_to_string.
  - now apply runs_end_starts, runs_end_query.
  - now apply runs_starts, runs_uservar.
Qed.

(* ---- GTID events ---- *)
Lemma runs_mysql_gtid fl u n : u8 fl -> server_id u -> u64 n ->
  runs parse_mysql_gtid (le_enc 1 fl ++ u ++ le_enc 8 n) (MySqlGtid (Gtid (uuid_new u) n) fl).
Proof.
  intros H1 H2 H3. unfold parse_mysql_gtid. rd. eapply runs_bind; [apply runs_read_bytes; [unfold server_id in H2; lia|unfold isize_max; lia]|].
  rdl. apply runs_ret.
Qed.
Lemma runs_maria_gtid h fl g : u8 fl -> mgtid_ok g -> mg_server g = h_server h ->
  runs (parse_maria_gtid h) (le_enc 8 (mg_seq g) ++ le_enc 4 (mg_domain g) ++ le_enc 1 fl) (MariaGtid g fl).
Proof.
  destruct g as [d s q]. unfold mgtid_ok. cbn [mg_domain mg_server mg_seq]. intros H1 (H2 & H3 & H4) ->.
  unfold parse_maria_gtid. rd. rd. rdl. apply runs_ret.
Qed.
Lemma runs_list_gtid g : mgtid_ok g -> runs list_gtid (le_enc 4 (mg_domain g) ++ le_enc 4 (mg_server g) ++ le_enc 8 (mg_seq g)) g.
Proof.
  destruct g as [d s q]. unfold mgtid_ok. cbn [mg_domain mg_server mg_seq]. intros (H2 & H3 & H4).
  unfold list_gtid. rd. rd. rdl. apply runs_ret.
Qed.
Lemma runs_maria_list l : N.of_nat (length l) < 268435456 -> Forall mgtid_ok l -> runs parse_maria_gtid_list (maria_list_bytes 0 l) l.
Proof.
  intros H1 H2. unfold parse_maria_gtid_list, maria_list_bytes. rewrite N.mul_0_r, N.add_0_r. rd.
  apply runs_ploop; [reflexivity|]. eapply Forall_impl; [|exact H2]. intros g Hg. split; [discriminate|now apply runs_list_gtid].
Qed.
(* more entries announced than present *)
Lemma read_le_at_end k pre : (0 < k)%nat -> N.of_nat k <= isize_max -> read_le k pre (length pre) = Err (EIo UnexpectedEof).
Proof.
  intros H M. unfold read_le, pbind, read_bytes. rewrite alloc_ok by exact M. cbn [rbind]. rewrite Nat.sub_diag.
  destruct (N.ltb_spec (N.of_nat 0) (N.of_nat k)); [reflexivity|lia].
Qed.
Lemma list_short : forall l fuel n pre, Forall mgtid_ok l -> (length l < fuel)%nat -> N.of_nat (length l) < n ->
  ploop_aux fuel n list_gtid (pre ++ flat_map (fun g => le_enc 4 (mg_domain g) ++ le_enc 4 (mg_server g) ++ le_enc 8 (mg_seq g)) l) (length pre) = Err (EIo UnexpectedEof).
Proof.
  induction l as [|g l IH]; intros fuel n pre H F L; (destruct fuel as [|fuel]; [lia|]); cbn [ploop_aux length] in *; (destruct (N.eqb_spec n 0); [lia|]).
  - cbn [flat_map]. rewrite app_nil_r. unfold pbind at 1. unfold list_gtid, pbind at 1. unfold read_u32. rewrite read_le_at_end; [reflexivity|lia|unfold isize_max; lia].
  - apply Forall_cons_iff in H. destruct H as [Hg H]. cbn [flat_map]. set (enc := le_enc 4 _ ++ _). unfold pbind at 1.
    rewrite (runs_list_gtid g Hg pre). fold enc. unfold pbind at 1. rewrite app_assoc, <- app_length. rewrite IH; [reflexivity|exact H|lia|lia].
Qed.
Lemma maria_list_flags flags l : 0 < flags -> flags < 16 -> N.of_nat (length l) < 268435456 -> Forall mgtid_ok l ->
  parse_maria_gtid_list (maria_list_bytes flags l) 0%nat = Err (EIo UnexpectedEof).
Proof.
  intros F1 F2 H1 H2. unfold parse_maria_gtid_list, maria_list_bytes. set (n := N.of_nat (length l) + 268435456 * flags). assert (Hn : u32 n) by (unfold u32, n; lia).
  unfold pbind. pose proof (runs_u32 n Hn [] (flat_map (fun g => le_enc 4 (mg_domain g) ++ le_enc 4 (mg_server g) ++ le_enc 8 (mg_seq g)) l)) as R. cbn [app length] in R. rewrite R. cbn [Nat.add]. clear R.
  unfold ploop. rewrite list_short; [reflexivity|exact H2| |unfold n; lia].
  rewrite app_length. assert (forall l : list mgtid, length l <= length (flat_map (fun g => le_enc 4 (mg_domain g) ++ le_enc 4 (mg_server g) ++ le_enc 8 (mg_seq g)) l))%nat; [|specialize (H l); lia].
  clear. induction l as [|g l IH]; cbn [flat_map length]; [lia|]. rewrite !app_length, !le_enc_length. lia.
Qed.
Definition prev_iv (i : N * N) : interval := Interval (fst i) (snd i - 1).
Definition prev_us (s : prev_server) : uuid_set := UuidSet (uuid_new (fst s)) (map prev_iv (snd s)).
Lemma runs_prev_interval bl i : 0 < fst i -> fst i < snd i -> u64 (snd i) -> runs (prev_interval bl) (prev_interval_bytes i) (prev_iv i).
Proof.
  intros H1 H2 H3. unfold prev_interval, prev_interval_bytes, prev_iv. rd. rdl. eapply runs_bind_nil; [apply runs_lift, usub_ok; lia|].
  apply runs_ret.
Qed.
Lemma runs_prev_server bl s : prev_server_ok s -> runs (prev_uuid_set bl) (prev_server_bytes s) (prev_us s).
Proof.
  destruct s as [u ivs]. unfold prev_server_ok, prev_server_bytes, prev_us. cbn [fst snd]. intros (H1 & H2 & H3).
  unfold prev_uuid_set. eapply runs_bind; [apply runs_read_bytes; [unfold server_id in H1; lia|unfold isize_max; lia]|].
  rd. eapply runs_bind_last; [|apply runs_ret]. apply (runs_ploop_map _ prev_interval_bytes prev_iv); [reflexivity|].
  eapply Forall_impl; [|exact H3]. intros i (I1 & I2 & I3). split; [discriminate|now apply runs_prev_interval].
Qed.
Lemma put_all_distinct (l : list uuid_set) m :
  NoDup (map fst m ++ map (fun us => utext (us_source us)) l) ->
  fold_left (fun m us => hm_put (utext (us_source us)) us m) l m = m ++ map (fun us => (utext (us_source us), us)) l.
Proof.
  revert m. induction l as [|us l IH]; intros m H; cbn [fold_left map]; [now rewrite app_nil_r|].
  cbn [map] in H. rewrite hm_put_new.
  - rewrite IH; [now rewrite <- app_assoc|]. rewrite map_app. cbn [map fst]. now rewrite <- app_assoc.
  - apply NoDup_remove_2 in H. intros Hi. apply H. apply in_or_app. now left.
Qed.
Definition prev_set (l : list prev_server) : gtid_set := map (fun s => (utext (uuid_new (fst s)), prev_us s)) l.
Lemma runs_prev_gtids bl l : prev_gtids_ok l -> runs (parse_prev_gtids bl) (prev_gtids_bytes l) (prev_set l).
Proof.
  intros (H1 & H2 & H3). unfold parse_prev_gtids, prev_gtids_bytes. rd.
  eapply runs_bind_last.
  - apply (runs_ploop_map _ prev_server_bytes prev_us); [reflexivity|]. eapply Forall_impl; [|exact H2].
    intros s Hs. split; [|now apply runs_prev_server]. destruct Hs as (Hs & _). unfold prev_server_bytes. destruct (fst s); [discriminate Hs|discriminate].
  - rewrite put_all_distinct.
    + unfold gtid_set_new. cbn [app]. rewrite map_map. apply runs_ret.
    + cbn [gtid_set_new map app]. rewrite map_map. cbn [us_source prev_us]. clear H1. induction l as [|s l IH]; cbn [map] in *; [constructor|].
      apply Forall_cons_iff in H2. destruct H2 as [Hs H2]. inversion H3 as [|? ? Hn Hd]; subst. constructor; [|now apply IH].
      intros Hi. apply in_map_iff in Hi. destruct Hi as (s' & E & Hs'). apply Hn. apply in_map_iff. exists s'. split; [|exact Hs'].
      rewrite Forall_forall in H2. destruct (H2 _ Hs') as (L & _). destruct Hs as (L' & _). apply uuid_new_inj; auto.
Qed.
Lemma prev_set_has l d n : prev_gtids_ok l -> (set_has (prev_set l) d n <-> prev_has l d n).
Proof.
  intros (_ & H2 & _). unfold set_has, prev_has, prev_set. rewrite Forall_forall in H2. split.
  - intros (k & us & Hi & Hd & i & Hii & Hn). apply in_map_iff in Hi. destruct Hi as ([u ivs] & E & Hi).
    injection E as _ <-. cbn [prev_us us_source us_ivs uuid_new udata fst snd] in *. apply in_map_iff in Hii. destruct Hii as ([s e] & <- & Hse).
    destruct (H2 _ Hi) as (_ & _ & F). cbn [snd] in F. rewrite Forall_forall in F. specialize (F _ Hse). cbn [fst snd] in F.
    unfold iv_has, prev_iv in Hn. cbn [istart iend fst snd] in Hn. exists ivs, s, e. subst d. repeat split; try assumption; lia.
  - intros (ivs & s & e & Hi & Hse & Hn). exists (utext (uuid_new d)), (prev_us (d, ivs)). split; [apply in_map_iff; now exists (d, ivs)|].
    split; [reflexivity|]. exists (prev_iv (s, e)). split; [cbn [prev_us us_ivs snd]; now apply in_map|].
    unfold iv_has, prev_iv. cbn [istart iend fst snd]. lia.
Qed.

(* ---- format description ---- *)
Lemma before_nul_pad a k : ~ In (n2b 0) a -> before_nul (a ++ repeat (n2b 0) k) = a.
Proof.
  unfold before_nul. induction a as [|b a IH]; intros H; cbn [app].
  - destruct k; [reflexivity|]. cbn [repeat]. rewrite b2n_n2b by lia. reflexivity.
  - destruct (N.eqb_spec (b2n b) 0) as [E|_].
    + exfalso. apply H. left. apply b2n_inj. rewrite E, b2n_n2b by lia. reflexivity.
    + f_equal. apply IH. intros Hi. apply H. now right.
Qed.
Lemma nth_error_split_n {A} (l : list A) k x : nth_error l k = Some x -> exists a b, l = a ++ x :: b /\ length a = k.
Proof. apply nth_error_split. Qed.
Lemma fde_len f : fde_ok f -> length (fde_bytes f) = (57 + length (f_lengths f) + match f_alg f with None => 0 | Some _ => 1 end)%nat.
Proof.
  intros (_ & _ & _ & H & _). unfold fde_bytes. rewrite !app_length, !le_enc_length, repeat_length. cbn [length].
  destruct (f_alg f); cbn [length]; rewrite ?le_enc_length; lia.
Qed.
Lemma runs_fde bl h f more : fde_ok f ->
  h_length h = 19 + N.of_nat (length (fde_wire f)) ->
  bl = Release \/ h_length h < 256 ->
  starts (parse_format_description bl h) (fde_bytes f ++ more) (FormatDescription (f_version f) (f_server f) (fde_checksum f)).
Proof.
  intros Ho Hl Hb. pose proof (fde_len f Ho) as Len.
  destruct Ho as (H1 & H2 & H3 & H4 & H5 & H6 & H7 & H8). unfold fde_wire in Hl. rewrite app_length, Len in Hl.
  destruct f as [ver name created lens alg crc]. cbn [f_version f_server f_created f_lengths f_alg f_crc] in *.
  set (n := N.of_nat (length lens)) in *.
  destruct (nth_error_split _ _ H7) as (la & lb & El & Lla).
  set (tail := match alg with None => [] | Some a => le_enc 1 a end).
  assert (E : fde_bytes (Fde ver name created lens alg crc) ++ more =
    le_enc 2 ver ++ (utf8_encode name ++ repeat (n2b 0) (50 - length (utf8_encode name))) ++ (le_enc 4 created ++ [n2b 19]) ++ la ++
     [n2b (57 + n)] ++ (lb ++ tail ++ more)).
  { unfold fde_bytes. cbn [f_version f_server f_created f_lengths f_alg f_crc]. fold tail. rewrite El. rewrite <- !app_assoc. reflexivity. }
  rewrite E. clear E Len.
  assert (D : exists d, usub 256 bl (h_length h mod 256) 19 = Ok d /\
     (57 + n =? d) = match alg with None => true | Some _ => false end).
  { assert (HL : h_length h = 76 + n + match alg with Some _ => 5 | None => 0 end).
    { rewrite Hl. unfold n. destruct alg; cbn [length]; [destruct H8 as [_ ->]|]; lia. }
    clear Hl. unum.
    assert (C : match alg with Some _ => 5 | None => 0 end = 5 /\ alg <> None \/ match alg with Some _ => 5 | None => 0 end = 0 /\ alg = None)
      by (destruct alg; [left|right]; split; congruence).
    unfold usub. destruct Hb as [->|Hb].
    - destruct (N.leb_spec 19 (h_length h mod 256)); eexists; (split; [reflexivity|]); unum;
        match goal with |- (?a =? ?b) = _ => destruct (N.eqb_spec a b) end;
        destruct alg; try reflexivity; exfalso; lia.
    - destruct (N.leb_spec 19 (h_length h mod 256)); [|lia]. eexists. split; [reflexivity|]. unum.
      match goal with |- (?a =? ?b) = _ => destruct (N.eqb_spec a b) end;
        destruct alg; try reflexivity; exfalso; lia. }
  destruct D as (d & D1 & D2).
  unfold starts, parse_format_description.
  pose proof (runs_u16 ver H1) as R1.
  assert (R2 : runs (read_bytes 50) (utf8_encode name ++ repeat (n2b 0) (50 - length (utf8_encode name))) (utf8_encode name ++ repeat (n2b 0) (50 - length (utf8_encode name)))).
  { apply runs_read_bytes; [rewrite app_length, repeat_length; lia|unfold isize_max; lia]. }
  assert (R3 : runs (seek_cur 5) (le_enc 4 created ++ [n2b 19]) tt) by (apply (runs_seek 5); rewrite app_length, le_enc_length; reflexivity).
  assert (R4 : runs (seek_cur 14) la tt) by (apply (runs_seek 14); exact Lla).
  assert (R5 : runs read_u8 [n2b (57 + n)] (57 + n)).
  { pose proof (runs_u8_byte (n2b (57 + n))) as R. rewrite b2n_n2b in R by exact H6. exact R. }
  set (one := [n2b (57 + n)]) in *. assert (Lone : length one = 1%nat) by reflexivity. clearbody one.
  set (sv := utf8_encode name ++ repeat (n2b 0) (50 - length (utf8_encode name))) in *.
  assert (Lsv : length sv = 50%nat) by (unfold sv; rewrite app_length, repeat_length; lia).
  set (s5 := le_enc 4 created ++ [n2b 19]) in *.
  assert (Ls5 : length s5 = 5%nat) by (unfold s5; rewrite app_length, le_enc_length; reflexivity).
  pose proof (R1 [] (sv ++ s5 ++ la ++ one ++ lb ++ tail ++ more)) as X1. cbn [app length] in X1.
  unfold pbind at 1. rewrite X1. clear X1. unfold pbind at 1.
  pose proof (R2 (le_enc 2 ver) (s5 ++ la ++ one ++ lb ++ tail ++ more)) as X2. rewrite le_enc_length in X2. cbn [Nat.add].
  rewrite le_enc_length. rewrite X2. clear X2. unfold pbind at 1. unfold sv at 1. rewrite before_nul_pad by now apply utf8_no_nul.
  rewrite utf8_decode_encode by exact H2. unfold lift at 1. unfold pbind at 1.
  pose proof (R3 (le_enc 2 ver ++ sv) (la ++ one ++ lb ++ tail ++ more)) as X3. rewrite app_length, le_enc_length, <- app_assoc in X3.
  rewrite X3. clear X3. unfold pbind at 1.
  pose proof (R4 (le_enc 2 ver ++ sv ++ s5) (one ++ lb ++ tail ++ more)) as X4. rewrite !app_length, le_enc_length, <- !app_assoc in X4.
  rewrite Nat.add_assoc in X4. rewrite X4. clear X4. unfold pbind at 1.
  pose proof (R5 (le_enc 2 ver ++ sv ++ s5 ++ la) (lb ++ tail ++ more)) as X5. rewrite !app_length, le_enc_length, <- !app_assoc in X5.
  rewrite !Nat.add_assoc in X5. rewrite X5. clear X5. unfold pbind at 1. rewrite D1. unfold lift at 1.
  unfold fde_checksum. cbn [f_version f_server f_alg]. destruct alg as [a|].
  - rewrite D2. unfold pbind at 1. unfold pbind at 1. unfold seek_cur. rewrite Lsv, Ls5, Lla, Lone. cbn [length].
    destruct (Z.ltb_spec (Z.of_nat (2 + 50 + 5 + 14 + 1) + (Z.of_N (57 + n) - 57 - 15)) 0); [unfold n in *; lia|].
    assert (Lb : length lb = (length lens - 15)%nat) by (rewrite El, app_length; cbn [length]; lia).
    assert (Ha : a <= 1) by apply H8.
    pose proof (runs_u8 a ltac:(lia) (le_enc 2 ver ++ sv ++ s5 ++ la ++ one ++ lb) more) as X6.
    rewrite !app_length, le_enc_length, <- !app_assoc in X6. rewrite Lsv, Ls5, Lla, Lb, Lone in X6. cbn [length] in X6. fold tail in X6.
    unfold pbind at 1.
    replace (Z.to_nat (Z.of_nat (2 + 50 + 5 + 14 + 1) + (Z.of_N (57 + n) - 57 - 15)))
      with (2 + (50 + (5 + (14 + (1 + (length lens - 15))))))%nat by (unfold n; lia).
    rewrite X6. assert (a = 0 \/ a = 1) as [->| ->] by lia; eexists; reflexivity.
  - rewrite D2. eexists. reflexivity.
Qed.
