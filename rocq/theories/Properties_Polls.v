(** Property C56. *)
From Verif Require Import Base BaseFacts SpecFormat SpecCrc SpecUtf8 SpecArchive SpecRead SpecWrite ZString ZDate Headers ExtraField Entry IO IOFacts Reader
  EntryReader Writer EntryProofs Samples WriteSamples StreamPolls SpecPolls PollProofs.

(** * C56. A stream polled through [AsyncWrite] in whatever way holds exactly what it reported as taken. *)
(** Pending polls that are given up, errors that are passed over, vectored writes, flushes and closes through the trait: the
    archive is the one that a single [write_all] of the reported bytes gives. *)
Theorem C56_polled_partial cd sched l : Forall raw_step l ->
  let '(outs, w) := run_steps cd l (zw_new sched) in let '(r, w') := zw_close w in
  Forall (fun x => ~ upstream (fst (snd x))) outs -> ~ upstream r ->
  let '(ys, q, v) := run_archive cd [] (map amounts_to outs) in
  map snd ys = map (fun x => fst (snd x)) outs /\ q = r /\ w_bytes v = w_bytes w'.
Proof. exact (polled_session cd sched l). Qed.
Print Assumptions C56_polled_partial.
Definition polling : list step :=
  [Call (OpWhole entry1 [x07]);
   Polled false entry1 [PollWrite [x01; x02; x03]; PollFlush; PollWrite [x02; x03]; PollClose; PollWriteVectored [[]; [x04; x05]; [x06]]; PollWrite [x0a]] true;
   Polled true entry2 [PollWrite [x09]; PollClose] false].
Definition moody : list wevent :=
  repeat (WAccept 99) 9 ++ [WAccept 1; WFail 5; WPending; WAccept 9; WFail 6].
Example C56_case : Forall raw_step polling /\
  let '(outs, w) := run_steps toy polling (zw_new moody) in let '(r, w') := zw_close w in
  map (fun x => fst (snd x)) outs = [Ok tt; Ok tt; Ok tt] /\ r = Ok tt /\
  map (fun x => map snd (snd (snd x))) outs =
    [[]; [WDone 1; WErr (IoOther 5); WPend; WDone 0; WDone 2; WErr (IoOther 6)]; [WDone 1; WDone 0]] /\
  map amounts_to outs = [OpWhole entry1 [x07]; OpStream false entry1 [SWriteAll [x01; x04; x05]] true; OpStream true entry2 [SWriteAll [x09]] false].
Proof.
  split; [|vm_compute; repeat split; reflexivity].
  constructor; [exact I|]. constructor; [now right|]. constructor; [now left|]. constructor.
Qed.
(** Closing through the trait does not complete the entry: every poll and every call succeeds, and the archive is empty. *)
Theorem C56_refuted : exists e b, en_compression e = Stored /\ b <> [] /\
  let '(outs, w) := run_steps toy [Polled false e [PollWrite b; PollClose] false] (zw_new []) in let '(r, w') := zw_close w in
  map snd outs = [(Ok tt, [(PollWrite b, WDone (len b)); (PollClose, WDone 0)])] /\ r = Ok tt /\
  match mem_new cfg0 (w_bytes w') with Ok m => f_entries (m_file m) = [] | _ => False end.
Proof. exists entry1, [x07; x08]. split; [reflexivity|]. split; [discriminate|]. vm_compute. repeat split; reflexivity. Qed.
Print Assumptions C56_refuted.
