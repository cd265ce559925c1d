(* The unit tests of the crate, run on the model: what their authors expect of the code, for all 27 of them and both builds. They check the model, not the properties. *)
From Coq Require Import Strings.String.
From Verif Require Import Base.Tac Base.Bytes Base.Text Base.Res Base.Str Base.Parse Model.Codec Model.Gtid Model.GtidMaria Model.Decimal Model.Cells Model.Events.
Local Open Scope N_scope.

Definition bytes_of (l : list N) : list byte := map n2b l.
Definition rmap {A B} (f : A -> B) (x : res A) : res B := let? a := x in Ok (f a).
(* the decoder's value alone *)
Definition value_of {A} (p : parser A) (l : list N) : res A := rmap fst (p (bytes_of l) 0%nat).

(* ---- providers/mysql/gtid/gtid_set.rs:85-300 ---- *)
Definition U1 : text := tx "24bc7850-2c16-11e6-a073-0242ac110001". (* gtid_set.rs:90 *)
Definition U2 : text := tx "24bc7850-2c16-11e6-a073-0242ac110002". (* gtid_set.rs:91 *)
(* Uuid::parse(..).unwrap(), as in gtid_set.rs:93-99 *)
Definition add_at (bl : build) (u : text) (n : N) (s : gtid_set) : res gtid_set := let? id := uuid_parse u in rmap snd (gtid_set_add bl s (Gtid id n)).
Definition parsed_text (bl : build) (t : text) : res text := rmap gtid_set_text (gtid_set_parse bl t).
(* the texts of the intervals saved for a server *)
Definition intervals_of (bl : build) (t u : text) : res (option (list text)) :=
  let? s := gtid_set_parse bl t in let? id := uuid_parse u in Ok (option_map (fun us => map interval_text (us_ivs us)) (hm_get (utext id) s)).
(* gtid_set.rs:102 *)
Example parse_empty_string_returns_empty_gtid_set : forall bl, gtid_set_parse bl [] = Ok [] /\ parsed_text bl [] = Ok [].
Proof. intros []; vm_compute; auto. Qed.
(* gtid_set.rs:111 *)
Example add_gtids_lists_merged : forall bl, (let? s := gtid_set_parse bl (U1 ++ tx ":3-5") in let? s := add_at bl U1 2 s in let? s := add_at bl U1 4 s in let? s := add_at bl U1 5 s in let? s := add_at bl U1 7 s in let? s := add_at bl U2 9 s in
  let? s := add_at bl U1 0 s in Ok (gtid_set_text s)) = Ok (U1 ++ tx ":0:2-5:7," ++ U2 ++ tx ":9").
Proof. intros []; vm_compute; reflexivity. Qed.
(* gtid_set.rs:128 *)
Example add_gtid_in_gap_intervals_joined : forall bl, (let? s := gtid_set_parse bl (U1 ++ tx ":3-4:6-7") in let? s := add_at bl U1 5 s in Ok (gtid_set_text s)) = Ok (U1 ++ tx ":3-7").
Proof. intros []; vm_compute; reflexivity. Qed.
(* gtid_set.rs:137 *)
Example raw_gtid_sets_equals_correctly : forall bl, parsed_text bl (U1 ++ tx ":1-191:192-199") = parsed_text bl (U1 ++ tx ":1-199") /\ parsed_text bl (U1 ++ tx ":1-191:193-199") <> parsed_text bl (U1 ++ tx ":1-199").
Proof. intros []; vm_compute; split; try reflexivity; discriminate. Qed.
(* gtid_set.rs:148 *)
Example simple_gtid_set_has_single_interval : forall bl, intervals_of bl (U1 ++ tx ":1-191") U1 = Ok (Some [interval_text (Interval 1 191)]) /\ parsed_text bl (U1 ++ tx ":1-191") = Ok (U1 ++ tx ":1-191").
Proof. intros []; vm_compute; auto. Qed.
(* gtid_set.rs:161 *)
Example continuous_intervals_collapsed : forall bl, intervals_of bl (U1 ++ tx ":1-191:192-199") U1 = Ok (Some [interval_text (Interval 1 199)]) /\ parsed_text bl (U1 ++ tx ":1-191:192-199") = Ok (U1 ++ tx ":1-199").
Proof. intros []; vm_compute; auto. Qed.
(* gtid_set.rs:174 *)
Example non_continuous_intervals_not_collapsed : forall bl, intervals_of bl (U1 ++ tx ":1-191:193-199") U1 = Ok (Some [interval_text (Interval 1 191); interval_text (Interval 193 199)]) /\
  parsed_text bl (U1 ++ tx ":1-191:193-199") = Ok (U1 ++ tx ":1-191:193-199").
Proof. intros []; vm_compute; auto. Qed.
(* gtid_set.rs:194 *)
Example multiple_intervals_not_collapsed : forall bl, intervals_of bl (U1 ++ tx ":1-191:193-199:1000-1033") U1 = Ok (Some [interval_text (Interval 1 191); interval_text (Interval 193 199); interval_text (Interval 1000 1033)]) /\
  parsed_text bl (U1 ++ tx ":1-191:193-199:1000-1033") = Ok (U1 ++ tx ":1-191:193-199:1000-1033").
Proof. intros []; vm_compute; auto. Qed.
(* gtid_set.rs:219 *)
Example multiple_intervals_some_collapsed : forall bl, intervals_of bl (U1 ++ tx ":1-191:192-199:1000-1033:1035-1036:1038-1039") U1 =
    Ok (Some [interval_text (Interval 1 199); interval_text (Interval 1000 1033); interval_text (Interval 1035 1036); interval_text (Interval 1038 1039)]) /\
  parsed_text bl (U1 ++ tx ":1-191:192-199:1000-1033:1035-1036:1038-1039") = Ok (U1 ++ tx ":1-199:1000-1033:1035-1036:1038-1039").
Proof. intros []; vm_compute; auto. Qed.
(* gtid_set.rs:251 *)
Example multi_server_setup_has_single_intervals_trims_spaces : forall bl, let t := U1 ++ tx ":1-3:11:47-49, " ++ U2 ++ tx ":1-19:55:56-100" in
  rmap (@List.length _) (gtid_set_parse bl t) = Ok 2%nat /\
  intervals_of bl t U1 = Ok (Some [interval_text (Interval 1 3); interval_text (Interval 11 11); interval_text (Interval 47 49)]) /\
  intervals_of bl t U2 = Ok (Some [interval_text (Interval 1 19); interval_text (Interval 55 100)]) /\
  parsed_text bl t = Ok (U1 ++ tx ":1-3:11:47-49," ++ U2 ++ tx ":1-19:55-100").
Proof. intros []; vm_compute; auto. Qed.

(* ---- providers/mariadb/gtid/gtid_list.rs:77-144 ---- *)
(* gtid_list.rs:84; unwrap panics with the error's message *)
Example parse_not_unique_domains : gtid_list_parse (tx "1-1-270, 1-1-271") = Err (EString (tx "GtidList must consist of unique domain ids")).
Proof. vm_compute; reflexivity. Qed.
(* gtid_list.rs:89 *)
Example parse_empty_string_returns_empty_gtid_list : gtid_list_parse [] = Ok [] /\ gtid_list_text [] = [].
Proof. vm_compute; auto. Qed.
Definition sized (t : text) : res (nat * text) := let? l := gtid_list_parse t in Ok (length l, gtid_list_text l).
(* gtid_list.rs:98 *)
Example parse_gtid_lists_returns_multiple_results : sized (tx "0-1-270") = Ok (1%nat, tx "0-1-270") /\ sized (tx "1-2-120,2-3-130") = Ok (2%nat, tx "1-2-120,2-3-130") /\
  sized (tx "1-2-120, 2-3-130, 3-4-50") = Ok (3%nat, tx "1-2-120,2-3-130,3-4-50").
Proof. vm_compute; auto. Qed.
Definition sized_add (t : text) (g : mgtid) : res (nat * text) := let? l := gtid_list_parse t in let l := snd (gtid_list_add l g) in Ok (length l, gtid_list_text l).
(* gtid_list.rs:116 *)
Example add_existing_domain_gtid_updated : sized_add (tx "0-1-270") (MGtid 0 1 271) = Ok (1%nat, tx "0-1-271").
Proof. vm_compute; reflexivity. Qed.
(* gtid_list.rs:125 *)
Example add_new_domain_gtid_added : sized_add (tx "0-1-270") (MGtid 1 1 271) = Ok (2%nat, tx "0-1-270,1-1-271").
Proof. vm_compute; reflexivity. Qed.
(* gtid_list.rs:134 *)
Example add_multi_domain_gtid_list_merged : sized_add (tx "1-2-120,2-3-130,3-4-50") (MGtid 2 4 250) = Ok (3%nat, tx "1-2-120,2-4-250,3-4-50").
Proof. vm_compute; reflexivity. Qed.

(* ---- providers/mysql/events/prev_gtids_event.rs:48 ---- *)
Example parse_event_returns_gtid_set : forall bl, rmap gtid_set_text (value_of (parse_prev_gtids bl)
  [2; 0; 0; 0; 0; 0; 0; 0; 181; 205; 22; 36; 95; 48; 17; 228; 180; 233; 16; 81; 114; 27; 210; 65; 1; 0; 0; 0; 0; 0; 0; 0; 1; 0; 0; 0; 0; 0; 0; 0; 241; 15; 108; 0; 0; 0; 0; 0;
   187; 66; 29; 38; 95; 48; 17; 228; 180; 233; 216; 157; 103; 43; 46; 248; 1; 0; 0; 0; 0; 0; 0; 0; 1; 0; 0; 0; 0; 0; 0; 0; 209; 97; 119; 0; 0; 0; 0; 0]) =
  Ok (tx "b5cd1624-5f30-11e4-b4e9-1051721bd241:1-7081968,bb421d26-5f30-11e4-b4e9-d89d672b2ef8:1-7823824").
Proof. intros []; vm_compute; reflexivity. Qed.

(* ---- events/uservar_event.rs:71 ---- *)
Example parse_user_var_event : exists flags, value_of parse_uservar
  [0x03; 0x00; 0x00; 0x00; 0x66; 0x6f; 0x6f; 0x00; 0x00; 0x21; 0x00; 0x00; 0x00; 0x03; 0x00; 0x00; 0x00; 0x62; 0x61; 0x72; 0x6b; 0x3d; 0xd9; 0x7d] =
  Ok (UserVar (tx "foo") (Some (VariableValue 0 33 (tx "bar") flags))).
Proof. eexists. vm_compute; reflexivity. Qed.

(* ---- events/row_events/actual_string_type.rs:34-64 ---- *)
Example get_actual_string_type_char : actual_string_type 254 52768 = (254, 800).
Proof. vm_compute; reflexivity. Qed.
Example get_actual_string_type_enum : actual_string_type 254 63233 = (247, 1).
Proof. vm_compute; reflexivity. Qed.
Example get_actual_string_type_set : actual_string_type 254 63489 = (248, 1).
Proof. vm_compute; reflexivity. Qed.

(* ---- events/row_events/decimal.rs:85-180 ---- *)
(* the two bytes of metadata, little endian, then the digits *)
Definition decimal_of (bl : build) (l : list N) : res text := value_of (m <- read_u16 ;; parse_decimal bl m) l.
(* decimal.rs:92 *)
Example parse_positive_number : forall bl, decimal_of bl [65; 10; 129; 13; 251; 56; 210; 6; 176; 139; 229; 33; 200; 92; 19; 0; 16; 248; 159; 19; 239; 59; 244; 39; 205; 127; 73; 59; 2; 55; 215; 2] =
  Ok (tx "1234567890112233445566778899001112223334445556667778889.9900011112").
Proof. intros []; vm_compute; reflexivity. Qed.
(* decimal.rs:107 *)
Example parse_negative_number : forall bl, decimal_of bl [65; 10; 126; 242; 4; 199; 45; 249; 79; 116; 26; 222; 55; 163; 236; 255; 239; 7; 96; 236; 16; 196; 11; 216; 50; 128; 182; 196; 253; 200; 40; 253] =
  Ok (tx "-1234567890112233445566778899001112223334445556667778889.9900011112").
Proof. intros []; vm_compute; reflexivity. Qed.
(* decimal.rs:122 *)
Example parse_with_starting_zeros_ignored : forall bl, decimal_of bl [65; 10; 128; 0; 0; 0; 0; 0; 0; 0; 0; 0; 0; 0; 0; 0; 0; 0; 0; 0; 0; 0; 0; 0; 118; 178; 73; 59; 2; 55; 215; 2] = Ok (tx "7778889.9900011112").
Proof. intros []; vm_compute; reflexivity. Qed.
(* decimal.rs:136 *)
Example parse_with_integral_zero : forall bl, decimal_of bl [65; 10; 128; 0; 0; 0; 0; 0; 0; 0; 0; 0; 0; 0; 0; 0; 0; 0; 0; 0; 0; 0; 0; 0; 0; 0; 0; 59; 2; 55; 215; 2] = Ok (tx "0.9900011112").
Proof. intros []; vm_compute; reflexivity. Qed.
(* decimal.rs:150 *)
Example compressed_fractional_starting_zeros_preserved : forall bl, decimal_of bl [60; 15; 128; 0; 0; 0; 0; 0; 0; 0; 0; 0; 0; 0; 2; 13; 152; 244; 39; 205; 127; 73; 7; 91; 205; 21; 0; 26; 44] = Ok (tx "34445556667778889.123456789006700").
Proof. intros []; vm_compute; reflexivity. Qed.
(* decimal.rs:165 *)
Example parse_integer : forall bl, decimal_of bl [60; 0; 128; 0; 0; 0; 0; 0; 0; 0; 0; 0; 0; 0; 0; 0; 0; 0; 0; 0; 0; 2; 13; 152; 244; 39; 205; 127; 73] = Ok (tx "34445556667778889").
Proof. intros []; vm_compute; reflexivity. Qed.
