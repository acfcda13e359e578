(** What a polled stream was given, as far as it said so. *)
From Verif Require Import Base Headers Entry IO EntryReader Writer StreamPolls.

(** the bytes a call reports as taken: the first [n] bytes on offer *)
Definition reported (x : poll_call * wpoll) : bytes :=
  match x with
  | (PollWrite b, WDone n) => take n b
  | (PollWriteVectored bs, WDone n) => take n (concat bs)
  | _ => []
  end.
Definition taken (xs : list (poll_call * wpoll)) : bytes := concat (map reported xs).
(** the call that a polled stream amounts to *)
Definition amounts_to (x : step * (res unit * list (poll_call * wpoll))) : wop :=
  match x with
  | (Call o, _) => o
  | (Polled pre e _ closed, (_, xs)) => OpStream pre e [SWriteAll (taken xs)] closed
  end.
(** polled streams are those whose data goes in as it is *)
Definition raw_step (s : step) : Prop :=
  match s with Call _ => True | Polled pre e _ _ => pre = true \/ en_compression e = Stored end.
