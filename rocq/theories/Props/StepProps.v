(* Claimed property of the errors a server refuses a step with: C106. *)
From Coq Require Import Strings.String.
From Verif Require Import Base.Tac Base.Bytes Base.Text Base.Res Base.Str Base.Parse Model.Codec Model.Gtid Model.GtidMaria Model.Events Model.Client Model.Commands
  Model.Responses Model.Channel Model.Session Spec.ChannelSpec Spec.SessionSpec Spec.StepSpec Proofs.CommandProofs Proofs.ChannelProofs Proofs.ReplicateProofs Proofs.PlanProofs Proofs.LoginProofs
  Props.ChannelProps Props.SessionProps.
Local Open Scope N_scope.

(* ---- what is not an error from the server ---- *)
Definition own {A} (r : res A) : Prop := match r with Err (EServer _ _ _ _) => False | _ => True end.
Definition powns {A} (p : parser A) : Prop := forall b n, own (p b n).
Lemma own_bind {A B} (r : res A) (f : A -> res B) : own r -> (forall a, own (f a)) -> own (rbind r f).
Proof. destruct r as [a|e| |]; cbn; auto. Qed.
Lemma po_bind {A B} (p : parser A) (f : A -> parser B) : powns p -> (forall a, powns (f a)) -> powns (pbind p f).
Proof. intros H K b n. unfold pbind. specialize (H b n). destruct (p b n) as [[a n']|e| |]; [apply K|destruct e; auto|exact I|exact I]. Qed.
Lemma po_ret {A} (a : A) : powns (ret a). Proof. intros b n. exact I. Qed.
Lemma po_lift {A} (r : res A) : own r -> powns (lift r).
Proof. intros H b n. unfold lift. destruct r as [a|e| |]; auto. Qed.
Lemma po_bytes n : powns (read_bytes n).
Proof. intros b k. unfold read_bytes, alloc. destruct (_ <? _); [exact I|]. cbn [rbind]. destruct (_ <? _); exact I. Qed.
Lemma po_le k : powns (read_le k). Proof. apply po_bind; [apply po_bytes|]. intros. apply po_ret. Qed.
Lemma own_utf8 bs : own (from_utf8 bs). Proof. unfold from_utf8. destruct (utf8_decode bs); exact I. Qed.
Lemma po_null_term : powns read_null_term_string.
Proof. apply po_bind; [|intros; apply po_lift, own_utf8]. intros b n. unfold read_until. exact I. Qed.
Lemma po_string n : powns (read_string n). Proof. apply po_bind; [apply po_bytes|]. intros. apply po_lift, own_utf8. Qed.
Lemma own_slice {A} (p : parser A) bs : powns p -> own (on_slice p bs).
Proof. intros H. unfold on_slice. specialize (H bs 0%nat). destruct (p bs 0%nat) as [[a n]|e| |]; auto. Qed.
Lemma own_handshake bs : own (parse_handshake bs).
Proof.
  apply own_slice. unfold handshake_parser, read_u8, read_u16, read_u32.
  repeat (apply po_bind; [first [apply po_le|apply po_null_term|apply po_bytes|apply po_string|idtac]|intros ?]); try apply po_ret; cbv zeta.
  - destruct (_ <? _); [apply po_bind; [apply po_null_term|intros; apply po_ret]|apply po_ret].
  - destruct (_ <? _); [apply po_null_term|apply po_ret].
Qed.
Lemma own_switch bs : own (parse_auth_switch bs).
Proof. apply own_slice. repeat (apply po_bind; [apply po_null_term|intros ?]). apply po_ret. Qed.
Lemma po_len_str : powns read_len_enc_str.
Proof.
  unfold read_len_enc_str. apply po_bind; [|intros; apply po_string]. unfold read_len_enc_num. apply po_bind; [apply po_le|]. intros b.
  repeat match goal with |- powns (if ?x then _ else _) => destruct x end; try apply po_ret; try apply po_le; try (intros ? ?; exact I).
Qed.
Lemma po_while {A} (p : parser A) : powns p -> powns (pwhile p).
Proof.
  intros H b n. unfold pwhile. generalize (S (length b)). intros f. revert n. induction f as [|f IH]; intros n; cbn [pwhile_aux]; destruct (_ <? _)%nat; try exact I.
  unfold pbind. specialize (H b n). destruct (p b n) as [[a n']|e| |]; auto. specialize (IH n'). destruct (pwhile_aux f p b n') as [[xs n2]|e| |]; auto.
Qed.
Lemma own_row bs : own (parse_row_packet bs). Proof. apply own_slice, po_while, po_len_str. Qed.
Lemma own_uadd m bl x y : own (uadd m bl x y). Proof. unfold uadd. destruct (_ <? _); [exact I|]. destruct bl; exact I. Qed.
Lemma own_usub m bl x y : own (usub m bl x y). Proof. unfold usub. destruct (_ <=? _); [exact I|]. destruct bl; exact I. Qed.
Lemma own_byte bs i : own (byte_at bs i). Proof. unfold byte_at. destruct (nth_error bs i); exact I. Qed.
Lemma own_plugin t : own (get_auth_plugin t). Proof. unfold get_auth_plugin. destruct (text_eqb _ _); [exact I|]. destruct (text_eqb _ _); exact I. Qed.
Lemma own_xor a b : own (xor_bytes a b). Proof. destruct a, b; exact I. Qed.
Lemma own_encrypt cr p s m : own (encrypt_password cr p s m).
Proof. destruct m; unfold encrypt_password, hashed; apply own_xor. Qed.
Lemma own_login cr u p d s m n c : own (authenticate_command cr u p d s m n c). Proof. unfold authenticate_command. apply own_bind; [apply own_encrypt|]. intros; exact I. Qed.
Lemma own_uint m t : own (parse_uint m t).
Proof. unfold parse_uint. destruct (strip_plus t); [exact I|]. destruct (forallb _ _); [|exact I]. destruct (_ <? _); exact I. Qed.
Lemma own_checksum t : own (checksum_from_name t). Proof. unfold checksum_from_name. destruct (text_eqb _ _); [exact I|]. destruct (text_eqb _ _); exact I. Qed.
Lemma own_dump bl id f pos o : own (dump_gtid_command bl id f pos o).
Proof.
  unfold dump_gtid_command. apply own_bind; [|intros; exact I]. induction o as [|e o IH]; cbn [dump_sets]; [exact I|].
  apply own_bind; [|intros; apply own_bind; [exact IH|intros; exact I]]. induction (us_ivs (snd e)) as [|i l IHl]; cbn [dump_intervals]; [exact I|].
  apply own_bind; [apply own_uadd|]. intros. apply own_bind; [exact IHl|intros; exact I].
Qed.
Lemma own_recv n : forall cs acc, own (fst (recv_exact n cs acc)).
Proof.
  intros cs. revert n. induction cs as [|c cs IH]; intros [|n] acc; cbn [recv_exact fst]; try exact I. destruct c as [bs| |]; try exact I.
  destruct (_ <=? _)%nat; [apply IH|exact I].
Qed.
Lemma own_packet cs : own (fst (read_packet cs)).
Proof.
  unfold read_packet. pose proof (own_recv 4 cs []) as H. destruct (recv_exact 4 cs []) as [[h|e| |] c1]; cbn [fst] in *; auto.
  pose proof (own_recv (N.to_nat (le_dec (firstn 3 h))) c1 []) as K. destruct (recv_exact _ c1 []) as [[p|e| |] c2]; cbn [fst] in *; auto.
Qed.

(* ---- walking through a function: P holds of everything exchanged so far ---- *)
Definition refused (l : list io) (m : text) (code : N) (msg : text) (state : option text) : Prop :=
  exists k p q, l = k ++ [Received p q] /\ refused_step k m /\ refusal p code msg state.
Definition tri {A} (P : list io -> Prop) (m : act A) (Q : A -> list io -> Prop) : Prop := forall w r w', P (w_log w) -> m w = (r, w') ->
  match r with Ok a => Q a (w_log w') | Err (EServer x c t s) => refused (w_log w') x c t s | _ => True end.
Lemma t_bind {A B} (P : list io -> Prop) (m : act A) (f : A -> act B) Q R : tri P m Q -> (forall a, tri (Q a) (f a) R) -> tri P (abind m f) R.
Proof.
  intros H K w r w' HP E. unfold abind in E. destruct (m w) as [r1 w1] eqn:E1. specialize (H w r1 w1 HP E1). destruct r1 as [a|e| |]; [|inv E; exact H|inv E; exact I|inv E; exact I].
  exact (K a w1 r w' H E).
Qed.
Lemma t_lift {A} (P : list io -> Prop) (x : res A) (Q : A -> list io -> Prop) : own x -> (forall a l, x = Ok a -> P l -> Q a l) -> tri P (alift x) Q.
Proof. intros O H w r w' HP E. unfold alift in E. inv E. destruct r as [a|e| |]; [now apply H|destruct e; auto; destruct O|exact I|exact I]. Qed.
Lemma t_ret {A} (P : list io -> Prop) (a : A) (Q : A -> list io -> Prop) : (forall l, P l -> Q a l) -> tri P (aret a) Q.
Proof. intros H w r w' HP E. inv E. now apply H. Qed.
Lemma t_write (P : list io -> Prop) p s (Q : unit -> list io -> Prop) : (forall l, P l -> Q tt (l ++ [Sent p s])) -> tri P (a_write p s) Q.
Proof. intros H w r w' HP E. unfold a_write in E. destruct (_ <=? _); inv E; [exact I|]. cbn [w_log]. now apply H. Qed.
Lemma t_read (P : list io -> Prop) (Q : packet -> list io -> Prop) : (forall l p, P l -> Q p (l ++ [got p])) -> tri P a_read Q.
Proof.
  intros H w r w' HP E. unfold a_read in E. pose proof (own_packet (w_in w)) as O. destruct (read_packet (w_in w)) as [[[p s]|e| |] cs]; inv E; cbn [w_log fst] in *;
    [exact (H _ (p, s) HP)|destruct e; auto; destruct O|exact I|exact I].
Qed.
(* the packet just read is checked *)
Lemma t_check (P : list io -> Prop) p m (Q : unit -> list io -> Prop) : (forall l, P l -> exists k, l = k ++ [got p] /\ refused_step k m) -> (forall l, P l -> Q tt l) -> tri P (alift (check_error_packet (fst p) m)) Q.
Proof.
  intros H K w r w' HP E. unfold alift in E. inv E. unfold check_error_packet. pose proof (own_byte (fst p) 0) as O. destruct (byte_at (fst p) 0) as [b|e| |] eqn:B; cbn [rbind]; [|destruct e; auto; destruct O|exact I|exact I].
  destruct (N.eqb_spec b resp_error) as [EB|]; [|now apply K]. destruct (fst p) as [|x d] eqn:EP; [discriminate B|]. unfold byte_at in B. cbn [nth_error] in B. injection B as B. cbn [skipn].
  assert (EX : x = n2b 255) by (rewrite <- (n2b_b2n x), B, EB; reflexivity). subst x.
  assert (OE : own (parse_error_packet d)).
  { apply own_slice. unfold error_packet_parser, read_to_string. apply po_bind; [apply po_le|]. intros c. apply po_bind.
    - apply po_bind; [intros ? ?; exact I|]. intros bs. destruct (utf8_decode bs); [apply po_ret|intros ? ?; exact I].
    - intros. repeat match goal with |- powns (if ?y then _ else _) => destruct y | |- powns (match ?y with _ => _ end) => destruct y end; try apply po_ret; try (intros ? ?; exact I). }
  destruct (parse_error_packet d) as [e|e| |] eqn:D; cbn [rbind]; [|destruct e; auto; destruct OE|exact I|exact I].
  destruct (H _ HP) as (k & L & RS). exists k, (n2b 255 :: d), (snd p). split; [rewrite L; unfold got; now rewrite EP|]. split; [exact RS|]. split; [now exists d|].
  intros code state msg OK ED. assert (Ed : d = error_body code state msg) by (injection ED; auto). rewrite Ed in D. destruct (C59_decoded code state msg OK) as (e' & D' & E1 & E2 & E3).
  rewrite D in D'. inv D'. auto.
Qed.
Lemma t_client (P : list io -> Prop) (Q : client -> list io -> Prop) : (forall c l, P l -> Q c l) -> tri P a_client Q.
Proof. intros H w r w' HP E. inv E. now apply H. Qed.
Lemma t_set (P : list io -> Prop) c (Q : unit -> list io -> Prop) : (forall l, P l -> Q tt l) -> tri P (a_set_client c) Q.
Proof. intros H w r w' HP E. inv E. cbn [w_log]. now apply H. Qed.

(* ---- the functions ---- *)
Definition any (l : list io) : Prop := True.
Lemma t_statement sql m : one_answer (query_command sql) m -> tri any (statement sql m) (fun _ => any).
Proof.
  intros H. unfold statement. apply (t_bind _ _ _ (fun _ l => exists k, l = k ++ [Sent (query_command sql) 0])); [apply t_write; eauto|]. intros [].
  apply (t_bind _ _ _ (fun p l => exists k, l = (k ++ [Sent (query_command sql) 0]) ++ [got p])); [apply t_read; intros l p (k & ->); eauto|]. intros p.
  apply t_check; [|intros; exact I]. intros l (k & ->). eexists. split; [reflexivity|]. now apply rs_statement.
Qed.
(* reading a result set: q is the statement *)
Lemma t_skip q f : tri (fun l => exists k x xs, l = k ++ [Sent q 0] ++ map got (x :: xs)) (skip_columns f) (fun _ l => exists k x xs, l = k ++ [Sent q 0] ++ map got (x :: xs)).
Proof.
  induction f as [|f IH]; cbn [skip_columns]; [apply t_lift; [exact I|discriminate]|].
  apply (t_bind _ _ _ (fun _ l => exists k x xs, l = k ++ [Sent q 0] ++ map got (x :: xs))).
  - apply t_read. intros l p (k & x & xs & ->). exists k, x, (xs ++ [p]). cbn [map app]. rewrite map_app, <- !app_assoc. cbn [app map]. now rewrite <- ?app_assoc.
  - intros p. apply (t_bind _ _ _ (fun _ l => exists k x xs, l = k ++ [Sent q 0] ++ map got (x :: xs))); [apply t_lift; [apply own_byte|auto]|]. intros b.
    destruct (_ =? _); [apply t_ret; auto|exact IH].
Qed.
Lemma t_rows q f : rows_answer q -> forall acc, tri (fun l => exists k x xs, l = k ++ [Sent q 0] ++ map got (x :: xs)) (read_rows f acc) (fun _ => any).
Proof.
  intros RA. induction f as [|f IH]; intros acc; cbn [read_rows]; [apply t_lift; [exact I|discriminate]|].
  apply (t_bind _ _ _ (fun p l => exists k x xs, l = (k ++ [Sent q 0] ++ map got (x :: xs)) ++ [got p])).
  - apply t_read. intros l p (k & x & xs & ->). eauto.
  - intros p. apply (t_bind _ _ _ (fun _ l => exists k x xs, l = k ++ [Sent q 0] ++ map got (x :: xs))).
    + apply t_check; intros l (k & x & xs & ->); [eexists; split; [reflexivity|]; now apply rs_row|]. exists k, x, (xs ++ [p]). rewrite <- !app_assoc. cbn [map app]. rewrite map_app. reflexivity.
    + intros []. apply (t_bind _ _ _ (fun _ l => exists k x xs, l = k ++ [Sent q 0] ++ map got (x :: xs))); [apply t_lift; [apply own_byte|auto]|]. intros b.
      destruct (_ =? _); [apply t_ret; intros; exact I|].
      apply (t_bind _ _ _ (fun _ l => exists k x xs, l = k ++ [Sent q 0] ++ map got (x :: xs))); [apply t_lift; [apply own_row|auto]|]. intros row. apply IH.
Qed.
Lemma t_world {A} (P : list io -> Prop) (f : world -> act A) Q : (forall w, tri P (f w) Q) -> tri P (fun w => f w w) Q.
Proof. intros H w r w' HP E. exact (H w w r w' HP E). Qed.
Lemma t_query sql : rows_answer (query_command sql) -> forall {A} (f : list (list text) -> act A) Q, (forall rows, tri any (f rows) Q) ->
  tri any (_ <== a_write (query_command sql) 0 ;; rows <== read_result_set ;; f rows) Q.
Proof.
  intros RA A f Q H. apply (t_bind _ _ _ (fun _ l => exists k, l = k ++ [Sent (query_command sql) 0])); [apply t_write; eauto|]. intros [].
  apply (t_bind _ _ _ (fun _ => any)); [|exact H]. unfold read_result_set.
  apply (t_bind _ _ _ (fun p l => exists k, l = (k ++ [Sent (query_command sql) 0]) ++ [got p])); [apply t_read; intros l p (k & ->); eauto|]. intros p.
  apply (t_bind _ _ _ (fun _ l => exists k x xs, l = k ++ [Sent (query_command sql) 0] ++ map got (x :: xs))).
  - apply t_check; intros l (k & ->); [eexists; split; [reflexivity|]; now apply rs_rows|]. exists k, p, []. rewrite <- app_assoc. reflexivity.
  - intros []. apply (t_bind _ _ _ (fun _ l => exists k x xs, l = k ++ [Sent (query_command sql) 0] ++ map got (x :: xs))).
    + apply (t_world _ (fun w => skip_columns (in_size (w_in w)))). intros w. apply t_skip.
    + intros []. apply (t_world _ (fun w => read_rows (in_size (w_in w)) [])). intros w. now apply t_rows.
Qed.
Lemma t_any {A} (r : res A) : own r -> tri any (alift r) (fun _ => any). Proof. intros H. apply t_lift; [exact H|intros; exact I]. Qed.
Lemma t_adjust : tri any adjust_starting_position (fun _ => any).
Proof.
  unfold adjust_starting_position. apply (t_bind _ _ _ (fun _ => any)); [now apply t_client|]. intros c. destruct (negb _); [now apply t_ret|]. destruct (o_file (c_opts c)); [|now apply t_ret].
  apply t_query; [left; apply asks_query|]. intros [|row [|]]; try (apply t_any; exact I). destruct row as [|file [|p r]]; try (apply t_any; exact I).
  - apply (t_bind _ _ _ (fun _ => any)); [now apply t_set|]. intros []. apply t_any. exact I.
  - apply (t_bind _ _ _ (fun _ => any)); [now apply t_set|]. intros []. apply (t_bind _ _ _ (fun _ => any)); [apply t_any, own_uint|]. intros pos. now apply t_set.
Qed.
Lemma t_checksum : tri any set_master_binlog_checksum (fun _ => any).
Proof.
  unfold set_master_binlog_checksum. apply (t_bind _ _ _ (fun _ => any)); [apply t_statement; constructor; apply asks_query|]. intros [].
  apply t_query; [right; apply asks_query|]. intros [|[|name cells] rows]; try (apply t_any; exact I). apply t_any, own_checksum.
Qed.
Lemma t_mariadb st id : s_server_id st < 4294967296 -> tri any (replicate_mariadb st id) (fun _ => any).
Proof.
  intros ID. unfold replicate_mariadb. apply (t_bind _ _ _ (fun _ => any)); [apply t_statement; constructor; apply asks_query|]. intros [].
  apply (t_bind _ _ _ (fun _ => any)); [now apply t_client|]. intros c. apply (t_bind _ _ _ (fun _ => any)); [|intros []; now apply t_write].
  destruct (strategy_eqb _ _); [|now apply t_ret]. destruct (o_list (c_opts c)) as [l|]; [|apply t_any; exact I]. unfold register_gtid_slave.
  apply (t_bind _ _ _ (fun _ => any)); [apply t_statement; apply (oa_state (gtid_list_text l)); apply asks_query|]. intros [].
  do 2 (apply (t_bind _ _ _ (fun _ => any)); [apply t_statement; constructor; apply asks_query|]; intros []).
  apply (t_bind _ _ _ (fun _ l => exists k, l = k ++ [Sent (register_command (s_server_id st)) 0])); [apply t_write; eauto|]. intros [].
  apply (t_bind _ _ _ (fun p l => exists k, l = (k ++ [Sent (register_command (s_server_id st)) 0]) ++ [got p])); [apply t_read; intros l0 p (k & ->); eauto|]. intros p.
  apply t_check; [|intros; exact I]. intros l0 (k & ->). eexists. split; [reflexivity|]. apply rs_statement. apply (oa_register (s_server_id st)). now apply register_read.
Qed.
Lemma t_mysql bl ev id : tri any (replicate_mysql bl ev id) (fun _ => any).
Proof.
  unfold replicate_mysql. apply (t_bind _ _ _ (fun _ => any)); [now apply t_client|]. intros c. cbv zeta. destruct (strategy_eqb _ _); [|now apply t_write].
  destruct (o_set (c_opts c)); [|apply t_any; exact I]. apply (t_bind _ _ _ (fun _ => any)); [apply t_any, own_dump|]. intros p. now apply t_write.
Qed.

(* ---- logging in ---- *)
Definition ciphers (ev : env) : Prop := forall k x, own (rsa (e_crypto ev) k x).
Lemma t_sha bl ev st p scramble s : ciphers ev -> tri any (authenticate_sha_256 bl ev st p scramble s false) (fun _ => any).
Proof.
  intros C. unfold authenticate_sha_256. apply (t_bind _ _ _ (fun _ => any)); [apply t_any, own_byte|]. intros b0. apply (t_bind _ _ _ (fun _ => any)).
  { destruct (_ =? _); [|now apply t_ret]. apply (t_bind _ _ _ (fun _ => any)); [apply t_any, own_byte|]. intros b1. now apply t_ret. }
  intros [|]; [now apply t_ret|]. cbv zeta.
  apply (t_bind _ _ _ (fun _ l => exists k, l = k ++ [Sent [n2b 2] s])); [apply t_write; eauto|]. intros [].
  apply (t_bind _ _ _ (fun r l => exists k, l = (k ++ [Sent [n2b 2] s]) ++ [got r])); [apply t_read; intros l r (k & ->); eauto|]. intros r.
  apply (t_bind _ _ _ (fun _ l => exists k, l = (k ++ [Sent [n2b 2] s]) ++ [got r])).
  { apply t_check; [|auto]. intros l (k & ->). eexists. split; [reflexivity|]. apply rs_key. }
  intros []. apply (t_bind _ _ _ (fun _ l => exists k, l = (k ++ [Sent [n2b 2] s]) ++ [got r])); [apply t_lift; [apply own_xor|auto]|]. intros x.
  apply (t_bind _ _ _ (fun _ l => exists k, l = (k ++ [Sent [n2b 2] s]) ++ [got r])); [apply t_lift; [apply C|auto]|]. intros e.
  apply (t_bind _ _ _ (fun _ l => exists k, l = (k ++ [Sent [n2b 2] s]) ++ [got r])); [apply t_lift; [apply own_uadd|auto]|]. intros s'.
  apply (t_bind _ _ _ (fun _ l => exists k, l = k ++ [Sent [n2b 2] s; got r; Sent e s'])).
  { apply t_write. intros l (k & ->). exists k. now rewrite <- !app_assoc. }
  intros []. apply (t_bind _ _ _ (fun p l => exists k, l = (k ++ [Sent [n2b 2] s; got r; Sent e s']) ++ [got p])); [apply t_read; intros l p0 (k & ->); eauto|].
  intros p0. apply t_check; [|intros; exact I]. intros l (k & ->). eexists. split; [reflexivity|]. apply rs_password.
Qed.
Lemma t_authenticate bl ev st hs pl s g : ciphers ev -> tri (fun l => l = [got g]) (authenticate bl ev st hs pl s) (fun _ => any).
Proof.
  intros C. unfold authenticate. apply (t_bind _ _ _ (fun _ l => l = [got g])).
  { destruct (_ =? _); [now apply t_ret|]. destruct (_ =? _); [destruct (_ <=? _); [apply t_lift; [exact I|discriminate]|now apply t_ret]|].
    apply (t_bind _ _ _ (fun _ => any)); [now apply t_write|]. intros []. apply (t_bind _ _ _ (fun _ => any)); [apply t_any, own_uadd|]. intros x. apply t_lift; [exact I|discriminate]. }
  intros []. apply (t_bind _ _ _ (fun _ l => l = [got g])); [apply t_lift; [apply own_login|auto]|]. intros c.
  apply (t_bind _ _ _ (fun _ l => l = [got g; Sent c s])); [apply t_write; intros l ->; reflexivity|]. intros [].
  apply (t_bind _ _ _ (fun r l => l = [got g; Sent c s] ++ [got r])); [apply t_read; intros l r ->; reflexivity|]. intros r.
  apply (t_bind _ _ _ (fun _ l => l = [got g; Sent c s] ++ [got r])); [apply t_check; [|auto]; intros l ->; eexists; split; [reflexivity|apply rs_login]|]. intros [].
  apply (t_bind _ _ _ (fun b l => l = [got g; Sent c s] ++ [got r] /\ byte_at (fst r) 0 = Ok b)); [apply t_lift; [apply own_byte|auto]|]. intros b.
  destruct (_ =? _); [apply t_ret; intros; exact I|]. destruct (N.eqb_spec b resp_switch) as [EB|].
  - apply (t_bind _ _ _ (fun _ l => l = [got g; Sent c s] ++ [got r] /\ byte_at (fst r) 0 = Ok b)); [apply t_lift; [apply own_switch|auto]|]. intros sw.
    apply (t_bind _ _ _ (fun _ l => l = [got g; Sent c s] ++ [got r] /\ byte_at (fst r) 0 = Ok b)); [apply t_lift; [apply own_uadd|auto]|]. intros s'. unfold handle_switch.
    apply (t_bind _ _ _ (fun _ l => l = [got g; Sent c s] ++ [got r] /\ byte_at (fst r) 0 = Ok b)); [apply t_lift; [apply own_plugin|auto]|]. intros p.
    apply (t_bind _ _ _ (fun _ l => l = [got g; Sent c s] ++ [got r] /\ byte_at (fst r) 0 = Ok b)); [apply t_lift; [apply own_encrypt|auto]|]. intros c2.
    apply (t_bind _ _ _ (fun _ l => l = [got g; Sent c s; got r; Sent c2 s'] /\ byte_at (fst r) 0 = Ok b)); [apply t_write; intros l [-> B]; auto|]. intros [].
    apply (t_bind _ _ _ (fun r2 l => l = [got g; Sent c s; got r; Sent c2 s'] ++ [got r2] /\ byte_at (fst r) 0 = Ok b)); [apply t_read; intros l r2 [-> B]; auto|]. intros r2.
    apply (t_bind _ _ _ (fun _ => any)).
    { apply t_check; [|intros; exact I]. intros l [-> B]. eexists. split; [reflexivity|]. apply rs_switch. subst b. destruct (fst r) as [|x d]; [discriminate B|]. exists d.
      unfold byte_at in B. cbn [nth_error] in B. injection B as B. rewrite <- (n2b_b2n x), B. reflexivity. }
    intros []. destruct (text_eqb _ _); [|now apply t_ret]. apply (t_bind _ _ _ (fun _ => any)); [apply t_any, own_uadd|]. intros s2. now apply t_sha.
  - apply (t_bind _ _ _ (fun _ => any)); [apply t_lift; [apply own_uadd|intros; exact I]|]. intros s'. now apply t_sha.
Qed.
Lemma t_connect bl ev st : ciphers ev -> tri (fun l => l = []) (connect bl ev st) (fun _ => any).
Proof.
  intros C. unfold connect. apply (t_bind _ _ _ (fun g l => l = [] ++ [got g])); [apply t_read; intros l p ->; reflexivity|]. intros g.
  apply (t_bind _ _ _ (fun _ l => l = [got g])); [apply t_check; [|auto]; intros l ->; eexists; split; [reflexivity|apply rs_hello]|]. intros [].
  apply (t_bind _ _ _ (fun _ l => l = [got g])); [apply t_lift; [apply own_handshake|auto]|]. intros hs.
  apply (t_bind _ _ _ (fun _ l => l = [got g])); [apply t_lift; [apply own_plugin|auto]|]. intros p.
  apply (t_bind _ _ _ (fun _ l => l = [got g])); [apply t_lift; [apply own_uadd|auto]|]. intros s.
  apply (t_bind _ _ _ (fun _ => any)); [now apply t_authenticate|]. intros []. now apply t_ret.
Qed.

(* ---- C106 ---- *)
(* The encryption of the password (OpenSSL) has no errors from the server. *)
Theorem C106_names_step : forall bl ev st w w' m code msg state, w_log w = [] -> s_server_id st < 4294967296 ->
  (forall k x m c t s, rsa (e_crypto ev) k x <> Err (EServer m c t s)) ->
  replicate bl ev st w = (Err (EServer m code msg state), w') ->
  exists before p s, w_log w' = before ++ [Received p s] /\ refused_step before m /\ refusal p code msg state.
Proof.
  intros bl ev st w w' m code msg state L ID C E. assert (C' : ciphers ev).
  { intros k x. specialize (C k x). destruct (rsa (e_crypto ev) k x) as [a|e| |]; try exact I. destruct e; try exact I. exact (C _ _ _ _ eq_refl). }
  assert (T : tri (fun l => l = []) (replicate bl ev st) (fun _ => any)).
  { unfold replicate. apply (t_bind _ _ _ (fun _ => any)); [now apply t_connect|]. intros pr. apply (t_bind _ _ _ (fun _ => any)); [now apply t_client|]. intros c.
    apply (t_bind _ _ _ (fun _ => any)); [now apply t_set|]. intros []. apply (t_bind _ _ _ (fun _ => any)); [apply t_adjust|]. intros [].
    apply (t_bind _ _ _ (fun _ => any)). { apply t_statement. apply (oa_heartbeat (s_heartbeat st)). exists (heartbeat_period (s_heartbeat st)). split; [apply asks_query|apply heartbeat_period_bounds]. }
    intros []. apply (t_bind _ _ _ (fun _ => any)); [apply t_checksum|]. intros ck. cbv zeta. apply (t_bind _ _ _ (fun _ => any)); [destruct pr; [now apply t_mariadb|apply t_mysql]|].
    intros []. now apply t_ret. }
  exact (T w _ w' L E).
Qed.
Print Assumptions C106_names_step.
(* the text for an encrypted connection never appears: there are none *)
Theorem C106_no_clear_password : forall bl ev st w w' code msg state, w_log w = [] -> s_server_id st < 4294967296 ->
  (forall k x m c t s, rsa (e_crypto ev) k x <> Err (EServer m c t s)) ->
  replicate bl ev st w <> (Err (EServer (tx "Sending clear password error.") code msg state), w').
Proof.
  intros bl ev st w w' code msg state L ID C E. destruct (C106_names_step bl ev st w w' _ _ _ _ L ID C E) as (b & p & s & _ & R & _).
  remember (tx "Sending clear password error.") as m eqn:M. destruct R as [| | | | |l q m O| |]; try discriminate M. destruct O; discriminate M.
Qed.
Print Assumptions C106_no_clear_password.

(* a MariaDB server that refuses after k packets, for each k (at 5 and 6 a column definition or its end is expected); the login dialogues *)
Definition refusing (o : options) (ps : list (list byte)) : option text :=
  match fst (replicate Release env0 st0 (start o (ps ++ [errp 1064 (tx "no")]))) with Err (EServer m c x s) => if (c =? 1064) && text_eqb x (tx "no") then Some m else None | _ => None end.
Example C106_example :
  map (fun k => refusing (from_mariadb_gtid [MGtid 0 3 10]) (firstn k ([maria_hello; okp] ++ good_answers ++ [okp; okp; okp; okp; okp]))) (seq 0 14) =
    [Some (tx "Initial handshake error."); Some (tx "Authentication error."); Some (tx "Setting master heartbeat error."); Some (tx "Setting master_binlog_checksum error.");
     Some (tx "Reading result set error."); None; None; Some (tx "Query result set error."); Some (tx "Query result set error.");
     Some (tx "Setting @mariadb_slave_capability error."); Some (tx "Setting @slave_connect_state error."); Some (tx "Setting @slave_gtid_strict_mode error.");
     Some (tx "Setting @slave_gtid_ignore_duplicates error."); Some (tx "Registering slave error.")] /\
  refusing from_end [mysql_hello; okp] = Some (tx "Reading result set error.") /\
  refusing o_here [mysql_hello; n2b 0xFE :: tx_bytes "caching_sha2_password" ++ [n2b 0] ++ tx_bytes "abcdefghijklmnopqrst" ++ [n2b 0]] = Some (tx "Authentication switch error.") /\
  refusing o_here [caching_hello; [n2b 1; n2b 4]] = Some (tx "Requesting caching_sha2_password public key.") /\
  refusing o_here [caching_hello; [n2b 1; n2b 4]; n2b 1 :: tx_bytes "key"] = Some (tx "Authentication error.") /\
  s_server_id st0 < 4294967296 /\ (forall k x m c t s, rsa (e_crypto env0) k x <> Err (EServer m c t s)).
Proof. repeat split; try (vm_compute; reflexivity). intros; discriminate. Qed.
