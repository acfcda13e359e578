(** Decoders that do not stop without reason, and callers that go on until they are done. *)
From Verif Require Import Base Headers Entry IO Reader EntryReader ReaderPolls SpecReadPolls DecoderPolls DecoderWalk.
Import SpecReadPolls.

(** It waits only for the source. *)
Definition decoder_lively (D : decoder) : Prop :=
  forall n g s l g' s' l', dg_poll D n g s l = (RPend, g', s', l') -> exists u, s_sched s = u ++ s_sched s' /\ In RPending u.

(** how often a source makes its caller wait *)
Definition delays (l : list revent) : nat := length (filter (fun e => match e with RPending => true | _ => false end) l).
(** A stay that lasts until all of an entry was handed over, or passed over: each poll may wait, or get one byte only.
    [m] bounds how often the source makes it wait. *)
Definition thorough (m : nat) (content : bytes) (y : stay) : Prop :=
  if sy_done y then Forall has_room (sy_polls y) /\ (m + length content < length (sy_polls y))%nat /\ (m < sy_patience y)%nat
  else (m + length content < sy_patience y)%nat.
