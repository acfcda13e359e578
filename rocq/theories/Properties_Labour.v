(** Property C86. *)
From Verif Require Import Base BaseFacts ZString ZDate Headers ExtraField Entry IO Reader EntryReader Writer Samples SpecWrite WriteSamples SpecLabour LabourProofs.

(** * C86. Writing takes work in proportion to the bytes. *)
(** Every answer of the sink that is not a mere [Pending] has taken a byte, done a flush that was asked for, or was
    reported as the error of the call: no call polls the sink in vain, in any state, whatever the sink does. *)
Theorem C86_call cd o w : let '(r, w') := run_op cd o w in
  k_flushes (w_sink w') <= k_flushes (w_sink w) + asked_flushes o /\
  troubled w w' (len (w_bytes w') - len (w_bytes w) + (k_flushes (w_sink w') - k_flushes (w_sink w)) + from_sink r).
Proof. exact (op_work cd o w). Qed.
Print Assumptions C86_call.
Theorem C86_session cd sched l : let '(xs, r, w) := run_archive cd sched l in
  k_flushes (w_sink w) <= all_flushes l /\
  exists used, sched = used ++ k_sched (w_sink w) /\ answered used <= len (w_bytes w) + k_flushes (w_sink w) + from_sinks xs + from_sink r.
Proof. exact (session_work cd sched l). Qed.
Print Assumptions C86_session.
(** a sink that takes a byte at a time: the bound is met exactly *)
Definition dripping (k : nat) : list wevent := concat (repeat [WPending; WAccept 1] k).
Example C86_case : let '(xs, r, w) := run_archive toy (dripping 600) history in
  r = Ok tt /\ from_sinks xs = 0 /\ all_flushes history = 1 /\ k_flushes (w_sink w) = 1 /\
  600 - answered (k_sched (w_sink w)) = len (w_bytes w) + 1 /\ 100 < len (w_bytes w).
Proof. vm_compute. repeat split; reflexivity. Qed.
(** one that fails now and then: one answer more for each call it spoils *)
Definition moody (k : nat) : list wevent := concat (repeat (repeat (WAccept 1) 50 ++ [WFail 7]) k).
Example C86_case_errors : let '(xs, r, w) := run_archive toy (moody 9) history in
  from_sinks xs + from_sink r = 3 /\ 459 - answered (k_sched (w_sink w)) = len (w_bytes w) + k_flushes (w_sink w) + 3.
Proof. vm_compute. repeat split; reflexivity. Qed.
Example C86_case_call : let '(r, w') := run_op toy (OpWhole entry1 [x68; x69; x21]) (zw_new [WPending; WAccept 2; WPending; WAccept 0]) in
  r = Err (UpstreamReadError WriteZero) /\ len (w_bytes w') = 2 /\ from_sink r = 1 /\ k_sched (w_sink w') = [].
Proof. vm_compute. repeat split; reflexivity. Qed.
