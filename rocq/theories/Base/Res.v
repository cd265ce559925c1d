(* Results of Rust functions: a value, an error value, a panic, or an endless loop.
   Also: fixed-width unsigned arithmetic in debug builds (overflow panics) and release builds (wraps). *)
From Verif Require Import Base.Tac Base.Bytes Base.Text.
Local Open Scope N_scope.

(* std::io::ErrorKind values that occur. *)
Inductive iokind := UnexpectedEof | InvalidInput | InvalidData | TimedOut | OtherIo.

(* src/errors.rs:7-15.  The payload of the library error types (utf8, hex, int, openssl) is dropped:
   only the variant is kept.  [EServer] is the `Error::String(format!("{} {:?}", message, ErrorPacket))`
   of src/extensions.rs:139-146, kept structured (message, error_code, error_message, sql_state). *)
Inductive error :=
| EIo (k : iokind)
| EUtf8
| EFromUtf8
| EHex
| EParseInt
| EErrStack
| EString (msg : text)
| EServer (msg : text) (code : N) (emsg : text) (state : option text).

Inductive res (A : Type) :=
| Ok (a : A)
| Err (e : error)
| Panic
| Diverge.
Arguments Ok {A} a.
Arguments Err {A} e.
Arguments Panic {A}.
Arguments Diverge {A}.

Definition rbind {A B} (r : res A) (f : A -> res B) : res B :=
  match r with
  | Ok a => f a
  | Err e => Err e
  | Panic => Panic
  | Diverge => Diverge
  end.
Notation "'let?' x := r 'in' k" := (rbind r (fun x => k))
  (at level 200, x pattern, r at level 100, k at level 200, right associativity).

(* returned normally (Ok or Err): no panic, no endless loop *)
Definition returns {A} (r : res A) : Prop := match r with Ok _ | Err _ => True | _ => False end.

Lemma returns_bind {A B} (r : res A) (f : A -> res B) :
  returns r -> (forall a, r = Ok a -> returns (f a)) -> returns (rbind r f).
Proof. destruct r; cbn; auto; try tauto. Qed.

Fixpoint mapM {A B} (f : A -> res B) (l : list A) : res (list B) :=
  match l with
  | [] => Ok []
  | x :: r => let? y := f x in let? ys := mapM f r in Ok (y :: ys)
  end.

(* The two arithmetic regimes of rustc. *)
Inductive build := Debug | Release.

Definition u8max1 : N := 256.
Definition u32max1 : N := 4294967296.
Definition u64max1 : N := 18446744073709551616.
Definition isize_max : N := 9223372036854775807.

(* x + y, x - y, x * y on an unsigned type with m values *)
Definition uadd (m : N) (bl : build) (x y : N) : res N :=
  if x + y <? m then Ok (x + y) else match bl with Debug => Panic | Release => Ok ((x + y) mod m) end.
Definition usub (m : N) (bl : build) (x y : N) : res N :=
  if y <=? x then Ok (x - y) else match bl with Debug => Panic | Release => Ok ((x + m - y) mod m) end.
Definition umul (m : N) (bl : build) (x y : N) : res N :=
  if x * y <? m then Ok (x * y) else match bl with Debug => Panic | Release => Ok ((x * y) mod m) end.

Lemma uadd_ok m bl x y : x + y < m -> uadd m bl x y = Ok (x + y).
Proof. intros H. unfold uadd. destruct (N.ltb_spec (x + y) m); [reflexivity|lia]. Qed.
Lemma usub_ok m bl x y : y <= x -> usub m bl x y = Ok (x - y).
Proof. intros H. unfold usub. destruct (N.leb_spec y x); [reflexivity|lia]. Qed.
Lemma umul_ok m bl x y : x * y < m -> umul m bl x y = Ok (x * y).
Proof. intros H. unfold umul. destruct (N.ltb_spec (x * y) m); [reflexivity|lia]. Qed.

(* vec![0; n]: "capacity overflow" panic above isize::MAX.  (Running out of memory is not modelled.) *)
Definition alloc (n : N) : res unit := if isize_max <? n then Panic else Ok tt.
