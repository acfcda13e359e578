(** How often a source has to answer. *)
From Verif Require Import Base IO.

(** the polls among [l] that were not merely put off *)
Definition answers (l : list revent) : N :=
  len (filter (fun e => match e with RPending => false | _ => true end) l).
(** a run from [s] to [s'] in which the source answered at most [k] times; a schedule that is used up answers no more *)
Definition worked (s s' : source) (k : N) : Prop :=
  exists used, s_sched s = used ++ s_sched s' /\ answers used <= k.
