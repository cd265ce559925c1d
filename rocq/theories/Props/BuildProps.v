(* Property C85: debug and release builds agree unless the debug build panics. *)
From Coq Require Import Strings.String.
From Verif Require Import Base.Tac Base.Bytes Base.Text Base.Res Base.Str Base.Parse Model.Gtid Model.GtidMaria Model.Rows Model.Events Model.Reader Model.Responses Model.Channel
  Model.Client Model.Commands Model.Session Spec.GtidSpec Spec.ClientSpec Spec.CommandSpec Spec.ChannelSpec Spec.SessionSpec Proofs.BuildProofs Props.SessionProps.
Local Open Scope N_scope.

Lemma agreed {A} (d r : res A) : agree d r -> d <> Panic -> r = d.
Proof. intros [H|H] N; [contradiction|congruence]. Qed.
Theorem C85_decoding : forall st h bs, parse_event Debug st h bs <> Panic -> parse_event Release st h bs = parse_event Debug st h bs.
Proof. intros st h bs. apply agreed, agree_event. Qed.
Print Assumptions C85_decoding.
Theorem C85_gtid_text : forall t, gtid_set_parse Debug t <> Panic -> gtid_set_parse Release t = gtid_set_parse Debug t.
Proof. intros t. apply agreed, agree_parse. Qed.
Print Assumptions C85_gtid_text.
Theorem C85_gtid_add : forall s g, gtid_set_add Debug s g <> Panic -> gtid_set_add Release s g = gtid_set_add Debug s g.
Proof. intros s g. apply agreed, agree_set_add. Qed.
Print Assumptions C85_gtid_add.
Theorem C85_commit : forall c es, commit_all Debug c es <> Panic -> commit_all Release c es = commit_all Debug c es.
Proof. intros c es. apply agreed, agree_commit_all. Qed.
Print Assumptions C85_commit.
(* iterators: the same item and the same state behind it *)
Theorem C85_file : forall rd, fst (next Debug rd) <> Panic -> next Release rd = next Debug rd.
Proof. intros rd H. destruct (agree_next rd); [contradiction|congruence]. Qed.
Print Assumptions C85_file.
Theorem C85_network : forall s, fst (stream_next Debug s) <> Panic -> stream_next Release s = stream_next Debug s.
Proof. intros s H. destruct (agree_stream s); [contradiction|congruence]. Qed.
Print Assumptions C85_network.
(* the whole set-up: same result, client and conversation; up to a panic of the debug build the conversations are the same *)
Theorem C85_replicate : forall ev st w,
  (fst (replicate Debug ev st w) <> Panic -> replicate Release ev st w = replicate Debug ev st w) /\
  exists more, w_log (snd (replicate Release ev st w)) = w_log (snd (replicate Debug ev st w)) ++ more.
Proof.
  intros ev st w. destruct (agree_replicate ev st) as [_ H]. destruct (H w) as [[P E]|E].
  - split; [contradiction|exact E].
  - rewrite E. split; [reflexivity|]. exists []. now rewrite app_nil_r.
Qed.
Print Assumptions C85_replicate.
(* so whatever panics in release builds panics in debug builds *)
Theorem C85_release_panics : forall st h bs, parse_event Release st h bs = Panic -> parse_event Debug st h bs = Panic.
Proof. intros st h bs H. destruct (agree_event st h bs) as [E|E]; [exact E|congruence]. Qed.
Print Assumptions C85_release_panics.

(* both happen: a set of previous GTIDs that decodes in both builds, and one with an interval end of 0, on which the debug build panics *)
Example C85_example : let prev e := le_enc 8 1 ++ repeat (n2b 1) 16 ++ le_enc 8 1 ++ le_enc 8 3 ++ le_enc 8 e in
  parse_event Debug pstate_new (Header 0 35 0 0 0 0) (prev 9) =
    Ok (EvPrevGtids [(utext (uuid_new (repeat (n2b 1) 16)), UuidSet (uuid_new (repeat (n2b 1) 16)) [Interval 3 8])], pstate_new) /\
  parse_event Debug pstate_new (Header 0 35 0 0 0 0) (prev 0) = Panic /\
  parse_event Release pstate_new (Header 0 35 0 0 0 0) (prev 0) =
    Ok (EvPrevGtids [(utext (uuid_new (repeat (n2b 1) 16)), UuidSet (uuid_new (repeat (n2b 1) 16)) [Interval 3 18446744073709551615])], pstate_new) /\
  fst (replicate Debug env0 st0 (start (from_position (tx "bin.7") 120) ([mysql_hello; okp] ++ good_answers))) = Ok CkCrc32.
Proof. cbv zeta. split; [vm_compute; reflexivity|]. split; [vm_compute; reflexivity|]. split; vm_compute; reflexivity. Qed.
