(** Property theorems: sources whose seeks are pending, fail or are refused, and callers that give up. *)
From Verif Require Import Base BaseFacts SpecFormat SpecCrc SpecArchive SpecRead ZString ZDate Headers ExtraField Entry IO IOFacts Reader EntryReader
  Samples ReaderPolls SpecReadPolls GiveUp Seeks SpecSeeks SeekProofs.

(** * C78. Trouble with seeks, and calls that are given up, change no result. *)
(** Opening ends as it does on the plain bytes, or with an error the source reports, or with a refused seek; the last only if it does not succeed on the plain
    bytes either or there are no entries. It is given up only if the source says more often that it is not ready than the caller puts up with. *)
Theorem C78_opening cfg n h :
  let '(x, n', h') := h_file cfg n h in
  s_data (h_src h') = s_data (h_src h) /\
  match x with
  | Finished r =>
      r = fst (file cfg (cursor (s_data (h_src h)))) \/
      (exists c, reports h c /\ r = Err (UpstreamReadError (IoOther c))) \/
      r = Err (UpstreamReadError InvalidInput) /\ (roomy h -> forall f, fst (file cfg (cursor (s_data (h_src h)))) = Ok f -> f_entries f = [])
  | Left => (n < waits h)%nat
  end.
Proof. exact (harsh_opening cfg n h). Qed.
Print Assumptions C78_opening.
(** A history of calls that may fail or be given up, whose entry readers are polled in any way and dropped: each hands over a beginning of its own entry. *)
Theorem C78_history cd f us h : let '(xs, h') := harsh_uses cd f us h in Forall2 (use_outcome cd f h) us xs.
Proof. pose proof (harsh_history cd f us h) as H. destruct (harsh_uses cd f us h) as [xs h']. exact (proj2 H). Qed.
Print Assumptions C78_history.
(** After any such history an entry reads as it does on the plain bytes, unless the source is in the way again. *)
Theorem C78_afterwards cd f us i n h : let '(_, h') := harsh_uses cd f us h in
  match h_read_entry cd f i n h' with
  | Finished r =>
      r = read_entry cd f i (cursor (s_data (h_src h))) \/
      (exists c, reports h' c /\ r = Err (UpstreamReadError (IoOther c))) \/
      r = Err (UpstreamReadError InvalidInput) /\ (roomy h -> forall b, read_entry cd f i (cursor (s_data (h_src h))) <> Ok b)
  | Left => (n < waits h')%nat
  end.
Proof. exact (harsh_afterwards cd f us i n h). Qed.
Print Assumptions C78_afterwards.

(** opening with every kind of trouble: with patience, without it, with a failing seek, and over a source that takes no position at all *)
Definition bad (seeks : list kevent) (max : N) : harsh :=
  {| h_src := {| s_data := sample; s_pos := 5; s_sched := [RPending; RChunk 100; RChunk 7; RPending] |}; h_seeks := seeks; h_max := max |}.
Definition slow : list kevent := [KPending 3; KDone; KPending 0; KPending 99].
Example C78_case :
  fst (fst (h_file cfg0 5%nat (bad slow 0x7fffffffffffffff))) = Finished (fst (file cfg0 (cursor sample))) /\
  (exists f, fst (file cfg0 (cursor sample)) = Ok f /\ len (f_entries f) = 2) /\
  fst (fst (h_file cfg0 4%nat (bad slow 0x7fffffffffffffff))) = Left /\
  fst (fst (h_file cfg0 9%nat (bad (slow ++ [KFail 7 12]) 0x7fffffffffffffff))) = Finished (Err (UpstreamReadError (IoOther 7))) /\
  fst (fst (h_file cfg0 9%nat (bad slow 10))) = Finished (Err (UpstreamReadError InvalidInput)).
Proof. vm_compute. split; [reflexivity|]. split; [eexists; split; reflexivity|]. repeat split; reflexivity. Qed.
(** Two calls are given up, one fails, two are carried out, and then the first entry is read. *)
Example C78_history_case : match fst (file cfg0 (cursor sample)) with
  | Ok f =>
    let '(xs, h') := harsh_uses toy f [(0, 3%nat, [PollRead 2]); (1, O, [PollRead 9]); (1, 3%nat, [PollRead 9]); (1, 3%nat, [PollRead 9]); (0, 9%nat, [PollRead 9])]
      (bad [KPending 3; KDone; KPending 0; KPending 1; KFail 4 0] 0x7fffffffffffffff) in
    map (fun x => match fst x with Finished (Ok _) => 0 | Finished _ => 1 | Left => 2 end) xs = [2; 2; 1; 0; 0] /\
    map snd xs = [[]; []; []; [(PollRead 9, RGot [x78; x79])]; [(PollRead 9, RGot data1)]] /\
    h_read_entry toy f 0 O h' = Finished (Ok data1)
  | _ => False
  end.
Proof. vm_compute. repeat split; reflexivity. Qed.
(** An archive without entries whose directory is said to start at 2^63: it opens from memory, and from a file it does not, since no file is read there. *)
Definition far_nothing : bytes :=
  [x50; x4b; x06; x06; x2c; x00; x00; x00; x00; x00; x00; x00; x2d; x00; x2d; x00; x00; x00; x00; x00; x00; x00; x00; x00; x00; x00; x00; x00; x00; x00; x00; x00; x00; x00; x00; x00; x00; x00; x00; x00; x00; x00; x00; x00; x00; x00; x00; x00; x00; x00; x00; x00; x00; x00; x00; x80; x50; x4b; x06; x07; x00; x00; x00; x00; x00; x00; x00; x00; x00; x00; x00; x00; x01; x00; x00; x00; x50; x4b; x05; x06; x00; x00; x00; x00; x00; x00; x00; x00; x00; x00; x00; x00; xff; xff; xff; xff; x00; x00].
Example C78_far :
  let h := {| h_src := cursor far_nothing; h_seeks := []; h_max := 0x7fffffffffffffff |} in
  roomy h /\ (exists f, fst (file cfg0 (cursor far_nothing)) = Ok f /\ f_entries f = []) /\
  fst (fst (h_file cfg0 O h)) = Finished (Err (UpstreamReadError InvalidInput)).
Proof. split; [split; vm_compute; discriminate|]. split; [eexists; vm_compute; split; reflexivity|vm_compute; reflexivity]. Qed.
