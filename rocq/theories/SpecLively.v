(** Encoders that do not stop without reason. *)
From Verif Require Import Base SpecWrite Headers Entry IO EntryReader Writer StreamPolls EncoderPolls.

(** It waits only for the sink, fails only if the sink did (or if it is asked to go on after its end), takes something of
    what it is offered, and does not end before it is told to. [view] is that of [engine_ok]. *)
Definition engine_lively (cd : codec) (E : engine cd) (view : eg_state E -> est cd * bytes * bool) : Prop :=
  forall c g w, let '(p, g', w') := eg_poll E c g w in
  (c <> EClose -> snd (view g') = snd (view g)) /\
  exists used, k_sched (w_sink w) = used ++ k_sched (w_sink w') /\
  match p with
  | WPend => In WPending used
  | WErr _ => ~ obliging used \/ snd (view g) = true /\ c <> EClose
  | WDone n => match c with EWrite b => b <> [] -> 0 < n | _ => True end
  end.

(** how often a sink makes its caller wait *)
Definition waits (l : list wevent) : nat := length (filter (fun e => match e with WPending => true | _ => false end) l).
(** as many polls as one await may take: each either waits for the sink or gets something done *)
Definition patient (k : nat) (sched : list wevent) (o : wop) : Prop :=
  match o with
  | OpStream _ _ body _ => Forall (fun x => match x with SWriteAll b => (waits sched + length b <= k)%nat | SFlush => True end) body /\ (waits sched < k)%nat
  | _ => True
  end.
