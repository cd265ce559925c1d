(* What arrives on a connection, byte by byte, and calls of an iterator one after the other (C58, C86, C87). *)
From Verif Require Import Base.Tac Base.Bytes Base.Text Base.Res Model.Channel.

(* bytes and read time-outs in the order in which they arrive; how the bytes are grouped is gone *)
Inductive arrival := Arrived (b : byte) | Late | Lost.
Definition arrivals (cs : list portion) : list arrival := flat_map (fun c => match c with Got bs => map Arrived bs | Stall => [Late] | Broke => [Lost] end) cs.

(* the first n results of an iterator *)
Fixpoint calls {S I} (step : S -> res (option I) * S) (n : nat) (s : S) : list (res (option I)) :=
  match n with O => [] | Datatypes.S n' => let (r, s') := step s in r :: calls step n' s' end.
(* the file iterator takes the decoder's "unexpected end" for the end of the file *)
Definition as_file {I} (r : res (option (I + error))) : res (option (I + error)) :=
  match r with Ok (Some (inr (EIo UnexpectedEof))) => Ok None | _ => r end.
