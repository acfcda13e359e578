(** How awaited calls end, and what they amount to. *)
From Verif Require Import Base SpecWrite Headers Entry IO EntryReader Writer StreamPolls EncoderPolls AwaitedWrites SpecLively.

(** a call that was given up is a stream that was dropped *)
Definition given_up (o : wop) : wop :=
  match o with OpStream pre e body _ => OpStream pre e body false | _ => o end.
(** the call that an awaited call amounts to, and how it ended *)
Definition settled (x : wop * option (res unit)) : wop * res unit :=
  match x with
  | (o, Some r) => (o, r)
  | (o, None) => (given_up o, Ok tt)
  end.

(** Nobody but the sink and the caller is to blame: a call that fails met a fault of the sink, one that is given up was
    polled too few times for what the sink made it wait. [used]: the answers of the sink that the call met. *)
Definition ended_by (k : nat) (used : list wevent) (o : wop) (x : option (res unit)) : Prop :=
  match x with
  | Some (Ok _) => True
  | Some (Err e) => (exists io, e = UpstreamReadError io) /\ ~ obliging used
  | Some (Panic _) => False
  | None => ~ patient k used o
  end.
