(** Archives however their session went: by calls, by polls in any order, or awaited with a patience, failures and dropped streams included. *)
From Verif Require Import Base SpecWrite Headers Entry IO EntryReader Writer StreamPolls EncoderPolls AwaitedWrites SpecEncoder SpecBlame.

(** [made cd xs body z d]: a session that amounted to the calls [xs] (what was called, and how it ended) had written [body] when it was closed,
    and closed as the archive [d]; [z] tells whether it has the extended form of its end. *)
Inductive made (cd : codec) : list (wop * res unit) -> bytes -> bool -> bytes -> Prop :=
| by_calls sched l xs w w' : Forall op_good l -> run_ops cd l (zw_new sched) = (xs, w) -> zw_close w = (Ok tt, w') ->
    made cd xs (w_bytes w) (w_zip64 w') (w_bytes w')
| by_polls (E : engine cd) view sched l outs w w' : engine_ok cd E view -> run_visits cd E l (zw_new sched) = (outs, w) -> zw_close w = (Ok tt, w') ->
    Forall (fun x => op_good (fst x)) (map counts_as outs) -> Forall not_ignored outs ->
    made cd (map counts_as outs) (w_bytes w) (w_zip64 w') (w_bytes w')
| by_awaits (E : engine cd) view k sched l outs w w' : engine_ok cd E view -> Forall op_good l ->
    awaited_ops cd E k l (zw_new sched) = (outs, w) -> zw_close w = (Ok tt, w') ->
    made cd (map settled outs) (w_bytes w) (w_zip64 w') (w_bytes w').
