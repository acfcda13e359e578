(** Property theorems: what a caller that polls can rely on. *)
From Verif Require Import Base SpecCrc SpecReadPolls SpecContract Headers Entry IO Reader EntryReader Writer ReaderPolls StreamPolls Samples WriteSamples ContractProofs.

(** * C96. Polls keep the contract of AsyncRead and AsyncWrite. *)
(** An entry reader waits only if the source does, in this poll, and nothing has happened then; likewise with errors, which are the source's own
    or the decoder's. It hands over no more than there is room for, nothing once it told the end, and asks the source once at most. *)
Theorem C96_read cd c r : let '(p, r') := er_poll cd c r in
  match p with
  | RPend => exists q, s_sched (er_src r) = RPending :: q /\ r' = r_waited r q
  | RGot b => len b <= room c /\ (s_sched (er_src r') = s_sched (er_src r) \/ exists k, s_sched (er_src r) = RChunk k :: s_sched (er_src r')) /\
      (has_room c -> b = [] -> forall l, told (fst (er_polls cd l r')) = [])
  | RErr e => (exists c q, e = IoOther c /\ s_sched (er_src r) = RFail c :: q /\ r' = r_waited r q) \/
      e = InvalidData /\ er_comp r <> Stored /\ (r' = r_waited r (s_sched (er_src r)) \/ exists k q, s_sched (er_src r) = RChunk k :: q /\ r' = r_waited r q)
  end.
Proof. exact (read_poll_contract cd c r). Qed.
Print Assumptions C96_read.
(** A stream writer that does not compress: likewise for the sink. What it says it took is a beginning of what was offered, and is in the sink then. *)
Theorem C96_write cd (c : poll_call) (sw : stream_writer cd) w : let '(p, sw', w') := raw_poll c sw w in
  match p with
  | WPend => sw' = sw /\ exists q, k_sched (w_sink w) = WPending :: q /\ w' = w_waited w q
  | WErr e => sw' = sw /\ exists x q, e = IoOther x /\ k_sched (w_sink w) = WFail x :: q /\ w' = w_waited w q
  | WDone n => n <= len (offered c) /\ w_bytes w' = w_bytes w ++ take n (offered c) /\ w_offset w' = w_offset w + n /\ sw_uoffset sw' = sw_uoffset sw + n /\
      (c = PollClose -> sw' = sw /\ w' = w)
  end.
Proof. exact (write_poll_contract cd c sw w). Qed.
Print Assumptions C96_write.
(** all answers occur: of a source that waits, fails and gives little; then the end, which stays *)
Example C96_case : fst (er_polls toy [PollRead 2; PollReadVectored [0; 9]; PollRead 2; PollRead 0; PollReadVectored [1; 1]; PollRead 5; PollRead 5]
    (er_new {| s_data := [x68; x69; x21]; s_pos := 0; s_sched := [RPending; RFail 4; RChunk 0] |} Stored 3)) =
  [(PollRead 2, RPend); (PollReadVectored [0; 9], RErr (IoOther 4)); (PollRead 2, RGot [x68]); (PollRead 0, RGot []); (PollReadVectored [1; 1], RGot [x69]);
   (PollRead 5, RGot [x21]); (PollRead 5, RGot [])].
Proof. vm_compute. reflexivity. Qed.
Example C96_polled : match stream_open toy false entry1 (zw_new []) with
  | (Ok sw, w) =>
    let w := w_waited w [WPending; WFail 4; WAccept 1; WAccept 0] in
    let '(xs, _, w') := raw_polls [PollWrite [x61]; PollFlush; PollWriteVectored [[]; [x68; x69]; [x21]]; PollWrite [x69]; PollWrite [x69]; PollFlush; PollClose] sw w in
    map snd xs = [WPend; WErr (IoOther 4); WDone 1; WDone 0; WDone 1; WDone 0; WDone 0] /\ w_bytes w' = w_bytes w ++ [x68; x69]
  | _ => False
  end.
Proof. vm_compute. split; reflexivity. Qed.
