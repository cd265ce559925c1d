(* Claimed properties of the errors the library makes up itself, word for word: C102.  (Others: C24, C34, C46, C57, C63, C83.) *)
From Coq Require Import Strings.String.
From Verif Require Import Base.Tac Base.Bytes Base.Text Base.Res Base.Str Base.Parse Model.Values Model.Cells Model.TableMap Model.Gtid Model.Events Model.Client
  Model.Commands Model.Responses Model.Channel Model.Session Model.Reader Spec.GtidTextSpec Spec.ChannelSpec Spec.SessionSpec
  Proofs.ReplicateProofs Proofs.LoginProofs Proofs.GtidTextProofs Props.ChannelProps Props.SessionProps.
Local Open Scope N_scope.

Lemma dec_spells n : spells (dec_text n) n.
Proof.
  unfold dec_text. assert (H : forall f n, (N.to_nat (N.log2 n) < f)%nat -> spells (dec_aux f n) n).
  { induction f as [|f IH]; intros m L; [lia|]. cbn [dec_aux]. pose proof (N.mod_lt m 10 ltac:(lia)). destruct (N.ltb_spec m 10) as [S|S].
    - cbn [app]. rewrite N.mod_small by lia. pose proof (spells_one (48 + m) ltac:(lia)) as X. replace (48 + m - 48) with m in X by lia. exact X.
    - assert (K : N.log2 (m / 10) < N.log2 m).
      { assert (M : m / 10 <= m / 2) by (apply N.div_le_compat_l; lia). apply N.log2_le_mono in M. rewrite <- N.div2_div, N.div2_spec, N.log2_shiftr in M.
        assert (1 <= N.log2 m) by (change 1 with (N.log2 2); apply N.log2_le_mono; lia). lia. }
      pose proof (spells_more _ _ (48 + m mod 10) (IH (m / 10) ltac:(lia)) ltac:(lia)) as X. replace (10 * (m / 10) + (48 + m mod 10 - 48)) with m in X by (pose proof (N.div_mod' m 10); lia). exact X. }
  apply H. lia.
Qed.

(* ---- kinds of values ---- *)
(* the codes MySQL and MariaDB use *)
Definition known_type (c : N) : Prop := c <= 19 \/ 245 <= c <= 255.
Theorem C102_column_type : forall bl c m buf pos, ~ known_type c -> exists d, spells d c /\
  parse_cell bl c m buf pos = Err (EString (tx "Unknown column type " ++ d)) /\ column_meta c buf pos = Err (EString (tx "Unknown column type " ++ d)).
Proof.
  intros bl c m buf pos K. exists (dec_text c). split; [apply dec_spells|]. assert (E : coltype_from_code c = Err (EString (tx "Unknown column type " ++ dec_text c))).
  { unfold known_type in K. unfold coltype_from_code. replace (find _ coltype_table) with (@None (N * coltype)); [reflexivity|]. symmetry. unfold coltype_table. cbn [find fst].
    repeat (match goal with |- context[if ?a =? c then _ else _] => destruct (N.eqb_spec a c); [exfalso; lia|] end). reflexivity. }
  unfold parse_cell, column_meta, pbind, lift. now rewrite E.
Qed.
Print Assumptions C102_column_type.
Theorem C102_column_type_known : forall c, known_type c <-> exists t, coltype_from_code c = Ok t.
Proof.
  intros c. split.
  - intros K. unfold known_type in K. assert (c < 256) by lia.
    assert (A : forallb (fun c => match coltype_from_code c with Ok _ => true | _ => negb ((c <=? 19) || ((245 <=? c) && (c <=? 255))) end) (map N.of_nat (seq 0 256)) = true) by (vm_compute; reflexivity).
    rewrite forallb_forall in A. specialize (A c). destruct (coltype_from_code c) as [t|e| |]; [eauto| | |];
      (exfalso; assert (I : In c (map N.of_nat (seq 0 256))) by (apply in_map_iff; exists (N.to_nat c); rewrite in_seq; split; lia); specialize (A I); cbv beta iota in A; lia).
  - intros [t E]. destruct (N.leb_spec c 19); [left; assumption|]. destruct (N.leb_spec 245 c); [destruct (N.leb_spec c 255); [right; lia|]|];
      (destruct (C102_column_type Release c 0 [] 0%nat) as (d & _ & _ & X); [unfold known_type; lia|unfold column_meta, pbind, lift in X; rewrite E in X; destruct t; discriminate]).
Qed.
Print Assumptions C102_column_type_known.
(* three types that row events never contain *)
Theorem C102_unsupported_cell : forall bl m buf pos,
  parse_cell bl 0 m buf pos = Err (EString (tx "Parsing column type Decimal is not supported")) /\
  parse_cell bl 6 m buf pos = Err (EString (tx "Parsing column type Null is not supported")) /\
  parse_cell bl 14 m buf pos = Err (EString (tx "Parsing column type NewDate is not supported")).
Proof. intros. repeat split. Qed.
Print Assumptions C102_unsupported_cell.
(* a TIME value is the only cell with this error; [C40_negative_time_rejected] says for which values *)
Theorem C102_negative_time : forall bl m, forall buf pos, (exists v q, read_u24 buf pos = Ok (v, q) /\ 2 ^ 23 <= v) ->
  parse_cell bl 11 m buf pos = Err (EString (tx "Parsing negative TIME values is not supported in this version")).
Proof.
  intros bl m buf pos (v & q & E & G). change (parse_cell bl 11 m) with (t <- parse_time ;; ret (VTime t)). unfold pbind, parse_time, pbind. rewrite E.
  assert (L : v < 2 ^ 24).
  { unfold read_u24, read_le, pbind, read_bytes, alloc in E. cbn [rbind] in E. destruct (_ <? _) in E; [discriminate|]. cbn [rbind] in E. destruct (_ <? _) in E; [discriminate|].
    injection E as <- _. pose proof (le_dec_lt (firstn (N.to_nat (N.of_nat 3)) (skipn pos buf))) as B. eapply N.lt_le_trans; [exact B|]. 
    rewrite firstn_length. change (2 ^ 24) with (256 ^ 3). apply N.pow_le_mono_r; lia. }
  unfold to_signed. change (24 - 1) with 23. destruct (N.ltb_spec v (2 ^ 23)); [lia|].
  destruct (Z.ltb_spec (Z.of_N v - Z.of_N (2 ^ 24)) 0); [reflexivity|lia].
Qed.
Print Assumptions C102_negative_time.

(* ---- checksum types, by the server's answer and by code ---- *)
Theorem C102_checksum : forall t, t <> tx "NONE" -> t <> tx "CRC32" -> checksum_from_name t = Err (EString (tx "The master checksum type is not supported: " ++ t)).
Proof. intros t A B. unfold checksum_from_name. destruct (text_eqb_spec t (tx "NONE")); [contradiction|]. destruct (text_eqb_spec t (tx "CRC32")); [contradiction|reflexivity]. Qed.
Print Assumptions C102_checksum.
Theorem C102_checksum_code : forall c, 1 < c -> exists d, spells d c /\ checksum_from_code c = Err (EString (tx "The master checksum type is not supported: " ++ d)).
Proof. intros c H. exists (dec_text c). split; [apply dec_spells|]. unfold checksum_from_code. destruct (N.eqb_spec c 0); [lia|]. destruct (N.eqb_spec c 1); [lia|reflexivity]. Qed.
Print Assumptions C102_checksum_code.

(* ---- GTIDs ---- *)
Theorem C102_foreign : forall bl s g, udata (us_source s) <> udata (g_source g) ->
  uuid_set_add bl s g = Err (EString (tx "SourceId of the passed gtid doesn't belong to the UuidSet")).
Proof.
  intros bl s g H. unfold uuid_set_add. destruct (Gtid.bytes_eqb (udata (us_source s)) (udata (g_source g))) eqn:E; [|reflexivity]. exfalso. apply H. revert E.
  generalize (udata (us_source s)), (udata (g_source g)). unfold Gtid.bytes_eqb. induction l as [|x l IH]; intros [|y l2] E; try reflexivity; try discriminate E.
  apply Bool.andb_true_iff in E. destruct E as [E1 E2]. cbn [combine forallb fst snd] in E2. apply Bool.andb_true_iff in E2. destruct E2 as [E2 E3].
  f_equal; [now destruct (byte_eqb_spec x y)|]. apply IH. apply Bool.andb_true_iff. split; [|exact E3]. cbn [length] in E1. exact E1.
Qed.
Print Assumptions C102_foreign.
(* a token of three or more pieces between dashes; the first such token of a set is named *)
Theorem C102_interval : forall a b more, ~ In 45 a -> ~ In 45 b ->
  parse_interval (a ++ 45 :: b ++ 45 :: more) = Err (EString (tx "Invalid interval format " ++ a ++ 45 :: b ++ 45 :: more)).
Proof. intros a b more A B. unfold parse_interval. rewrite split_on_app by exact A. rewrite split_on_app by exact B. pose proof (split_on_nonempty 45 more). destruct (split_on 45 more); [contradiction|reflexivity]. Qed.
Print Assumptions C102_interval.

(* ---- setting up ---- *)
Theorem C102_plugin : forall bl ev st h s ps t rest w, hello_ok h -> he_protocol h <> 255 ->
  let name := if plugin_auth h then he_plugin h else [] in name <> tx "mysql_native_password" -> name <> tx "caching_sha2_password" ->
  pending (w_in w) ((hello_bytes h, s) :: ps) t rest ->
  exists w', replicate bl ev st w = (Err (EString (name ++ tx " auth plugin is not supported.")), w') /\ w_log w' = w_log w ++ [got (hello_bytes h, s)] /\ w_client w' = w_client w.
Proof.
  intros bl ev st h s ps t rest w H PR name A B P. destruct (a_read_ok w _ _ _ _ P) as (cs & R & _). eexists. unfold replicate, connect. unfold abind at 1. rewrite (abind_ok _ _ _ _ _ R). cbn [fst snd].
  unfold abind at 1, alift. rewrite check_pass by (apply hello_not_error; assumption). destruct (C60_handshake h [] H) as (hs & E1 & _ & _ & _ & E4 & _). rewrite app_nil_r in E1.
  unfold abind at 1. rewrite E1. unfold abind at 1. rewrite E4. fold name. unfold get_auth_plugin. change native_name with (tx "mysql_native_password"). change caching_name with (tx "caching_sha2_password").
  destruct (text_eqb_spec name (tx "mysql_native_password")); [contradiction|]. destruct (text_eqb_spec name (tx "caching_sha2_password")); [contradiction|]. auto.
Qed.
Print Assumptions C102_plugin.
Theorem C102_no_position : forall w r rows ps qs t rest, o_strategy (c_opts (w_client w)) = FromEnd -> o_file (c_opts (w_client w)) = [] ->
  result_ok r -> rs_rows r = map plain rows -> length rows <> 1%nat -> map fst ps = result_bodies r -> pending (w_in w) (ps ++ qs) t rest ->
  exists w', adjust_starting_position w = (Err (EString (tx "Could not read master binlog position.")), w') /\ w_client w' = w_client w.
Proof.
  intros w r rows ps qs t rest ST F O R L M P.
  destruct (does_query_rows w (tx "show master status") r rows ps qs t rest ltac:(vm_compute; reflexivity) O R M P) as (cs & E & _).
  eexists. unfold adjust_starting_position. unfold abind at 1, a_client. rewrite ST, F. cbn [strategy_eqb negb].
  unfold abind at 1. unfold abind at 1 in E. destruct (a_write (query_command (tx "show master status")) 0 w) as [[[]|e| |] w1]; try discriminate E. rewrite (abind_ok _ _ _ _ _ E).
  destruct rows as [|a [|b rows]]; [split; reflexivity|now contradiction L|split; reflexivity].
Qed.
Print Assumptions C102_no_position.
(* without a position to start from nothing is asked for *)
Theorem C102_no_set : forall bl ev id w, o_strategy (c_opts (w_client w)) = FromGtid -> o_set (c_opts (w_client w)) = None ->
  replicate_mysql bl ev id w = (Err (EString (tx "GtidSet was not specified")), w).
Proof. intros bl ev id w A B. unfold replicate_mysql, abind, a_client. rewrite A, B. reflexivity. Qed.
Print Assumptions C102_no_set.
Theorem C102_no_list : forall st id w p qs t rest, o_strategy (c_opts (w_client w)) = FromGtid -> o_list (c_opts (w_client w)) = None ->
  not_byte 0xFF (fst p) -> pending (w_in w) (p :: qs) t rest ->
  exists w', replicate_mariadb st id w = (Err (EString (tx "GtidList was not specified")), w') /\
    w_log w' = w_log w ++ [Sent (query_command (tx "SET @mariadb_slave_capability=4")) 0; got p] /\ w_client w' = w_client w.
Proof.
  intros st id w p qs t rest A B N P. unfold replicate_mariadb.
  destruct (does_statement w (tx "SET @mariadb_slave_capability=4") (tx "Setting @mariadb_slave_capability error.") p qs t rest ltac:(vm_compute; reflexivity) N P) as (cs & E & _).
  rewrite (abind_ok _ _ _ _ _ E). unfold abind at 1, a_client. cbn [w_client]. rewrite A, B. eexists. repeat split.
Qed.
Print Assumptions C102_no_list.
(* a file that starts with other four bytes *)
Theorem C102_magic : forall b4 rest, length b4 = 4%nat -> b4 <> map n2b [0xFE; 0x62; 0x69; 0x6E] -> reader_new (b4 ++ rest) = Err (EString (tx "Invalid binary log file header")).
Proof.
  intros b4 rest L H. unfold reader_new, read_exact. rewrite app_length, L. destruct (N.ltb_spec (N.of_nat (4 + length rest)) 4); [lia|].
  change (N.to_nat 4) with 4%nat. rewrite <- L, firstn_app, firstn_all, Nat.sub_diag, firstn_O, app_nil_r.
  destruct b4 as [|x1 [|x2 [|x3 [|x4 [|]]]]]; try discriminate L. destruct (Reader.bytes_eqb _ magic_number) eqn:E; [|reflexivity]. exfalso. apply H.
  unfold magic_number in E. cbn [Reader.bytes_eqb] in E. repeat (apply Bool.andb_true_iff in E; destruct E as [? E]).
  repeat match goal with X : byte_eqb ?a ?b = true |- _ => destruct (byte_eqb_spec a b); [subst; clear X|discriminate] end. reflexivity.
Qed.
Print Assumptions C102_magic.

(* ---- the white space that may surround the parts of a GTID set or list (Unicode's White_Space) ---- *)
Theorem C102_white_space : forall c, is_ws c = true <->
  In c [9; 10; 11; 12; 13; 32; 0x85; 0xA0; 0x1680; 0x2000; 0x2001; 0x2002; 0x2003; 0x2004; 0x2005; 0x2006; 0x2007; 0x2008; 0x2009; 0x200A; 0x2028; 0x2029; 0x202F; 0x205F; 0x3000].
Proof. intros c. unfold is_ws. cbn [In]. split; [intros H|intros H]; lia. Qed.
Print Assumptions C102_white_space.

Example C102_example : parse_cell Debug 20 0 [] 0%nat = Err (EString (tx "Unknown column type 20")) /\ ~ known_type 20 /\
  checksum_from_name (tx "SHA1") = Err (EString (tx "The master checksum type is not supported: SHA1")) /\
  parse_interval (tx "1-2-3") = Err (EString (tx "Invalid interval format 1-2-3")) /\
  parse_cell Debug 11 0 (map n2b [0xFF; 0xFF; 0xFF]) 0%nat = Err (EString (tx "Parsing negative TIME values is not supported in this version")) /\
  reader_new (map n2b [0xFE; 0x62; 0x69; 0x6F]) = Err (EString (tx "Invalid binary log file header")).
Proof. repeat split; try (vm_compute; reflexivity). unfold known_type. lia. Qed.

(* ---- C59 ---- *)
(* an ERR packet among the column definitions of an answer is skipped: replicate() succeeds *)
Theorem C59_every_command_refuted : exists bl ev st w ck w' e s, w_log w = [] /\ replicate bl ev st w = (Ok ck, w') /\ In (Received e s) (w_log w') /\ starts_byte 0xFF e.
Proof.
  destruct C61_column_error_refuted as (bl & ev & st & w & ck & w' & a & e & s & b & E1 & E2 & E3 & E4 & _). exists bl, ev, st, w, ck, w', e, s.
  rewrite E3. repeat split; auto. apply in_or_app. right. now left.
Qed.
Print Assumptions C59_every_command_refuted.
