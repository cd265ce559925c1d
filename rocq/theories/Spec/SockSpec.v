(* What an operating system that takes only part of what is written has been handed. *)
From Verif Require Import Base.Tac Base.Bytes Base.Res Model.Channel Model.Session Spec.ChannelSpec Spec.SessionSpec.
(* packets, each with its whole header and as many bytes of its body as its one write took *)
Inductive handed : list packet -> list wrote -> list byte -> Prop :=
| h_nil : handed [] [] []
| h_cons p ps u n us bs : written u Whole n -> handed ps us bs -> handed (p :: ps) (u ++ us) (firstn n (wire p) ++ bs).
(* after n bytes of a packet a write was refused, or never returned *)
Definition broken {A} (r : res A) (used : list wrote) (n : nat) (left : list wrote) : Prop :=
  (r = Err (EIo OtherIo) /\ written used Refused n) \/ (r = Diverge /\ left = [] /\ written used Blocked n).
(* every buffer is taken as a whole *)
Definition takes_all (o : wrote) : Prop := exists n, o = Took n /\ (16777216 <= N.of_nat n)%N.
