(** How often a sink has to answer. *)
From Verif Require Import Base IO Reader EntryReader Writer.

(** the polls among [l] that were not merely put off *)
Definition answered (l : list wevent) : N :=
  len (filter (fun e => match e with WPending => false | _ => true end) l).
(** the answers a sink gave between [w] and [w'] are at most [k]; a schedule that is used up answers no more *)
Definition troubled (w w' : world) (k : N) : Prop :=
  exists used, k_sched (w_sink w) = used ++ k_sched (w_sink w') /\ answered used <= k.
(** the calls that came back with an error of the sink *)
Definition from_sink {A} (r : res A) : N := match r with Err (UpstreamReadError _) => 1 | _ => 0 end.
Definition from_sinks (l : list (wop * res unit)) : N := fold_right (fun x n => from_sink (snd x) + n) 0 l.
(** the flushes a caller asks for *)
Definition asked_flushes (o : wop) : N :=
  match o with OpStream _ _ body _ => len (filter (fun b => match b with SFlush => true | _ => false end) body) | _ => 0 end.
Definition all_flushes (l : list wop) : N := fold_right (fun o n => asked_flushes o + n) 0 l.
