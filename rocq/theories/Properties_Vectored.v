(** * C88. The offset writer counts what its sink takes. *)
From Verif Require Import Base IO Writer Vectored VectoredProofs.

(** Full statement: after any polls of the offset writer's methods, its offset is the number of bytes the sink has taken.
    It is false for vectored writes, which are forwarded without being counted. *)
Theorem C88_counted_partial l sched : (forall bs, ~ In (OwVectored bs) l) ->
  let w := snd (ow_polls l (zw_new sched)) in w_offset w = len (k_written (w_sink w)).
Proof. exact (plain_offset l sched). Qed.
Print Assumptions C88_counted_partial.

(** What is missing: with vectored writes the offset lags by exactly the bytes they reported. *)
Theorem C88_lags l w : let '(xs, w') := ow_polls l w in
  w_offset w' + uncounted xs + len (k_written (w_sink w)) = w_offset w + len (k_written (w_sink w')).
Proof. exact (offset_lags l w). Qed.
Print Assumptions C88_lags.

Theorem C88_refuted : exists l sched, let w := snd (ow_polls l (zw_new sched)) in w_offset w <> len (k_written (w_sink w)).
Proof. exists [OwVectored [[n2b 1]; [n2b 2]]], []. vm_compute. discriminate. Qed.
Print Assumptions C88_refuted.

(** A sink that puts off, takes two of three bytes, fails, and takes the rest. *)
Example C88_case :
  let '(xs, w) := ow_polls [OwWrite [n2b 1]; OwWrite [n2b 1; n2b 2; n2b 3]; OwWrite [n2b 3]; OwFlush; OwWrite [n2b 3]]
    (zw_new [WPending; WAccept 2; WFail 7]) in
  map snd xs = [WPend; WDone 2; WErr (IoOther 7); WDone 0; WDone 1] /\ w_offset w = 3 /\ uncounted xs = 0.
Proof. vm_compute. repeat split. Qed.
Example C88_vectored_case :
  let '(xs, w) := ow_polls [OwWrite [n2b 9]; OwVectored [[n2b 1]; []; [n2b 2; n2b 3]]] (zw_new [WAccept 1; WAccept 2]) in
  map snd xs = [WDone 1; WDone 2] /\ w_offset w = 1 /\ len (k_written (w_sink w)) = 3.
Proof. vm_compute. repeat split. Qed.
