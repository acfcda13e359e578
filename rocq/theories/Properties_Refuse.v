(** Property theorems: refused calls of the writer. *)
From Verif Require Import Base BaseFacts SpecFormat SpecArchive SpecRead SpecWrite SpecSession SpecRefuse ZString ZDate Headers ExtraField Entry
  IO IOFacts EntryReader Writer StreamFacts WholeFacts Samples WriteSamples Properties_Archive Properties_Session RefuseProofs.

(** * C85. A call that is refused before it has written anything leaves no trace. *)
(** Not so when it is refused for length: it may have made the archive a ZIP64 one by then. Leaving the call out, or calling
    [force_zip64] in its place, the session ends the same in every respect: on any sink, faulty or not. *)
Theorem C85_left_out_partial cd sched l1 o l2 :
  let '(xs1, w1) := run_ops cd l1 (zw_new sched) in
  let '(r, w2) := run_op cd o w1 in
  refused r w1 w2 ->
  exists xs2 rc w,
    run_archive cd sched (l1 ++ o :: l2) = (xs1 ++ (o, r) :: xs2, rc, w) /\
    run_archive cd sched (l1 ++ left_by w1 w2 ++ l2) = (xs1 ++ map (fun o => (o, Ok tt)) (left_by w1 w2) ++ xs2, rc, w).
Proof. exact (left_out cd sched l1 o l2). Qed.
Print Assumptions C85_left_out_partial.
(** No trace is left if the archive is a ZIP64 one already, if ZIP64 is forbidden, or if the refusal is for another reason. *)
Theorem C85_nothing_partial cd o w : let '(r, w2) := run_op cd o w in
  refused r w w2 -> w_zip64 w = true \/ w_force_no w = true \/ ~ too_large r -> w2 = w.
Proof. exact (left_nothing cd o w). Qed.
Print Assumptions C85_nothing_partial.
(** All calls of a session that are refused and leave no mark, taken out together. *)
Theorem C85_all_partial cd sched l : let '(xs, rc, w) := run_archive cd sched l in
  exists ys, run_archive cd sched (unrefused cd l (zw_new sched)) = (ys, rc, w) /\ fewer xs ys.
Proof. exact (unrefused_archive cd sched l). Qed.
Print Assumptions C85_all_partial.

(** Opening a stream under a name of 65536 bytes is refused; not a byte is written, but the archive becomes a ZIP64 one. *)
Definition stream_named (name : bytes) : wop := OpStream false (mk_entry (utf8 name) (utf8 []) Stored []) [] true.
Lemma long_stream name : len name = 65536 -> run_op toy (stream_named name) (zw_new []) = (Err FileNameTooLarge, set_zip64 (zw_new []) true).
Proof.
  intro L. unfold stream_named. cbn [run_op]. unfold bind at 1.
  pose proof (stream_open_spec toy false (mk_entry (utf8 name) (utf8 []) Stored []) (zw_new [])) as O. cbv zeta in O.
  destruct (stream_open toy false _ (zw_new [])) as [r w1].
  change (w_force_no (zw_new []) && so_big _) with false in O. cbv iota in O.
  assert (R : so_refused (w_force_no (zw_new [])) (mk_entry (utf8 name) (utf8 []) Stored []) = Some FileNameTooLarge).
  { unfold so_refused. cbv zeta.
    assert (N : len (basic_bytes (en_filename (so_e3 (w_force_no (zw_new [])) (mk_entry (utf8 name) (utf8 []) Stored [])))) = 65536) by exact L.
    rewrite N. reflexivity. }
  rewrite R in O. destruct O as [-> ->]. reflexivity.
Qed.
Theorem C85_refuted : exists o, let '(r, w2) := run_op toy o (zw_new []) in refused r (zw_new []) w2 /\
  snd (fst (run_archive toy [] [o])) = Ok tt /\ len (w_bytes (snd (run_archive toy [] [o]))) = 98 /\ len (w_bytes (snd (run_archive toy [] []))) = 22.
Proof.
  exists (stream_named (repeat x61 (N.to_nat 65536))).
  pose proof (long_stream (repeat x61 (N.to_nat 65536)) ltac:(unfold len; rewrite repeat_length, N2Nat.id; reflexivity)) as H. revert H.
  generalize (stream_named (repeat x61 (N.to_nat 65536))). intros o H. unfold run_archive. cbn [run_ops]. rewrite H.
  split; [split; [discriminate|]; split; [intros io; discriminate|reflexivity]|]. vm_compute. repeat split; reflexivity.
Qed.
Print Assumptions C85_refuted.

(** With ZIP64 forbidden: a large entry refused whole and as a stream, one without an encoder; what remains are the ones that worked. *)
Definition picky : list wop :=
  [OpForceNoZip64; OpWhole exotic [x09]; OpWhole entry1 [x68; x69]; OpWholePre vast [x05]; OpStream true vast [SWriteAll [x05]] true; OpComment [x68]].
Example C85_case : unrefused toy picky (zw_new bumpy) = [OpForceNoZip64; OpWhole entry1 [x68; x69]; OpComment [x68]] /\
  let '(xs, rc, w) := run_archive toy bumpy picky in
  map snd xs = [Ok tt; Panic PUnsupported; Ok tt; Err (Zip64Needed LargeFile); Err (Zip64Needed LargeFile); Ok tt] /\ rc = Ok tt /\
  w_bytes w = w_bytes (snd (run_archive toy [] [OpForceNoZip64; OpWhole entry1 [x68; x69]; OpComment [x68]])).
Proof. vm_compute. repeat split; reflexivity. Qed.
Example C85_case_one : let '(xs1, w1) := run_ops toy (firstn 3 picky) (zw_new bumpy) in
  let '(r, w2) := run_op toy (OpWholePre vast [x05]) w1 in refused r w1 w2 /\ left_by w1 w2 = [] /\ w_force_no w1 = true /\ len (w_bytes w1) = 39.
Proof.
  assert (H : let '(xs1, w1) := run_ops toy (firstn 3 picky) (zw_new bumpy) in
    let '(r, w2) := run_op toy (OpWholePre vast [x05]) w1 in r = Err (Zip64Needed LargeFile) /\ w_bytes w2 = w_bytes w1 /\ left_by w1 w2 = [] /\ w_force_no w1 = true /\ len (w_bytes w1) = 39)
    by (vm_compute; repeat split; reflexivity).
  destruct (run_ops toy (firstn 3 picky) (zw_new bumpy)) as [xs1 w1]. destruct (run_op toy (OpWholePre vast [x05]) w1) as [r w2]. destruct H as (-> & B & L).
  split; [split; [discriminate|split; [intros io; discriminate|exact B]]|exact L].
Qed.
(** the mark, and what stands for the call then *)
Example C85_marked : forall name, len name = 65536 ->
  left_by (zw_new []) (snd (run_op toy (stream_named name) (zw_new []))) = [OpForceZip64] /\
  w_bytes (snd (run_archive toy [] [stream_named name; OpWhole entry1 [x68; x69]])) = w_bytes (snd (run_archive toy [] [OpForceZip64; OpWhole entry1 [x68; x69]])).
Proof.
  intros name L. pose proof (long_stream name L) as H. revert H. generalize (stream_named name). intros o H. unfold run_archive. cbn [run_ops]. rewrite H. vm_compute. split; reflexivity.
Qed.
