(** What is asked of a caller that copies what it can. *)
From Verif Require Import Base BaseFacts SpecWrite Headers Entry IO Writer StreamPolls EncoderPolls AwaitedWrites SpecLively Relay.

(** a call that a plan leads to *)
Definition call_of (l : list relay_plan) (o : wop) : Prop :=
  exists y z e body closed, In y l /\ rp_as y z = Some e /\ o = OpStream false e body closed /\ len (fed_bytes body) <= fold_right N.add 0 (rp_buffers y).
(** each call is awaited for as many polls as the sink makes wait, and one for each byte that the buffers hold *)
Definition relay_awaits (k : nat) (sched : list wevent) (y : relay_plan) : Prop := (waits sched + N.to_nat (fold_right N.add 0%N (rp_buffers y)) < k)%nat.
