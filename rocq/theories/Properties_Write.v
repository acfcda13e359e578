(** Property theorems: writing archives. *)
From Verif Require Import Base SpecFormat SpecCrc SpecUtf8 SpecArchive SpecWrite ZString Headers ExtraField Entry
  IO EntryReader Writer WriteProofs Samples WriteSamples.

(** * C16. The offset is the number of bytes the sink has accepted. *)
(** after every poll of the offset writer *)
Theorem C16_poll buf w : w_offset w = len (w_bytes w) ->
  let '(p, w') := ow_poll_write buf w in
  w_offset w' = len (w_bytes w') /\
  exists n, w_bytes w' = w_bytes w ++ firstn n buf /\ match p with WDone m => m = len (firstn n buf) | _ => n = O end.
Proof. exact (poll_write_offset buf w). Qed.
Print Assumptions C16_poll.
(** after every operation, whatever the sink did *)
Theorem C16_offset cd l sched : let w := snd (run_ops cd l (zw_new sched)) in w_offset w = len (w_bytes w).
Proof. exact (run_ops_offset cd l sched). Qed.
Print Assumptions C16_offset.
Example C16_case : w_offset (snd (run_ops toy history (zw_new (bumpy ++ [WFail 5])))) = 233 /\
  w_offset (snd (run_ops toy history (zw_new (bumpy ++ [WFail 5])))) <> w_offset (snd (run_ops toy history (zw_new bumpy))).
Proof. vm_compute. split; [reflexivity|discriminate]. Qed.

(** * C17. Results and bytes do not depend on how the sink takes them. *)
Theorem C17_schedule cd sched l : obliging sched ->
  let '(xs, r, w) := run_archive cd sched l in let '(xs0, r0, w0) := run_archive cd [] l in
  xs = xs0 /\ r = r0 /\ w_bytes w = w_bytes w0.
Proof. exact (run_archive_calm cd sched l). Qed.
Print Assumptions C17_schedule.
Example C17_case : obliging bumpy /\ map (fun x => worked (snd x)) (fst (fst (run_archive toy bumpy history))) = [true; true; true; true; true] /\
  len (w_bytes (snd (run_archive toy bumpy history))) = 541.
Proof. split; [repeat constructor; discriminate|]. vm_compute. split; reflexivity. Qed.

(** * C18. A failing sink is left with a prefix, and the failing call says so. *)
Theorem C18_prefix stop cd sched l : (forall io, stop (Err (UpstreamReadError io)) = true) ->
  let '(rs, w) := run_until stop (calls cd l) (zw_new sched) in
  let '(rs0, w0) := run_until stop (calls cd l) (zw_new []) in
  prefix_of (w_bytes w) (w_bytes w0) /\
  ((rs = rs0 /\ w_bytes w = w_bytes w0) \/ (exists rs1 r, rs = rs1 ++ [r] /\ upstream r)) /\
  (forall used c, sched = used ++ k_sched (w_sink w) -> In (WFail c) used -> exists rs1 r, rs = rs1 ++ [r] /\ upstream r).
Proof. exact (fault_prefix stop cd sched l). Qed.
Print Assumptions C18_prefix.
Definition stop_err (r : res unit) : bool := match r with Ok _ => false | _ => true end.
Example C18_case : let '(rs, w) := run_until stop_err (calls toy history) (zw_new (bumpy ++ repeat (WAccept 9) 7 ++ [WFail 5])) in
  rs = [Ok tt; Err (UpstreamReadError (IoOther 5))] /\ len (w_bytes w) = 71.
Proof. vm_compute. split; reflexivity. Qed.

(** * C23. Writers do not panic, Deflate64 compression apart. *)
Theorem C23_no_panic cd sched l : enc_takes cd -> Forall (fun o => ~ asks_deflate64 o) l ->
  let '(xs, r, _) := run_archive cd sched l in
  Forall (fun x => no_panic (snd x)) xs /\ no_panic r.
Proof. exact (archive_no_panic cd sched l). Qed.
Print Assumptions C23_no_panic.
Example C23_case : enc_takes toy /\ Forall (fun o => ~ asks_deflate64 o) history.
Proof. split; [exact toy_takes|]. repeat constructor; cbn; first [discriminate | tauto]. Qed.

(** * C25. The sink is never closed, and [close] does not flush it. *)
Theorem C25_sink_open cd sched l :
  let '(xs, w) := run_ops cd l (zw_new sched) in
  let '(r, w') := zw_close w in
  k_closes (w_sink w) = 0 /\ k_closes (w_sink w') = 0 /\ k_flushes (w_sink w') = k_flushes (w_sink w).
Proof. exact (sink_stays_open cd sched l). Qed.
Print Assumptions C25_sink_open.
(** A close that reaches the sink is counted, so there was none. *)
Theorem C25_counts w : let '(p, w') := ow_poll_close w in
  w_bytes w' = w_bytes w /\ k_closes (w_sink w') = match p with WDone _ => k_closes (w_sink w) + 1 | _ => k_closes (w_sink w) end.
Proof. exact (poll_close_counts w). Qed.
Print Assumptions C25_counts.
Example C25_case : k_flushes (w_sink (snd (run_archive toy bumpy history))) = 1.
Proof. vm_compute. reflexivity. Qed.
