(** Property theorems: calls that are given up. *)
From Verif Require Import Base BaseFacts SpecFormat SpecArchive SpecRead SpecWrite ZString ZDate Headers ExtraField Entry IO IOFacts Reader
  EntryReader Writer Samples WriteSamples GiveUp SpecGiveUp GiveUpProofs.

(** * C74. Writer calls can be given up at any await. *)
(** Dropping the future of a call, or of [close], while it is pending leaves everything as if the sink had failed there. *)
Theorem C74_left cd sched l n : let '(xs, r, w) := d_run_archive cd sched l n in
  exists sched', soured sched sched' /\ run_archive cd sched' (map fst l) = (told_ops xs, told_of r, w).
Proof. exact (soured_archive cd sched l n). Qed.
Print Assumptions C74_left.
(** Who puts up with every pending poll sees what the other theorems are about. *)
Theorem C74_patient cd sched l n : Forall (fun x => (pends sched <= snd x)%nat) l -> (pends sched <= n)%nat ->
  let '(xs, r, w) := run_archive cd sched (map fst l) in d_run_archive cd sched l n = (map (fun x => (fst x, Finished (snd x))) xs, Finished r, w).
Proof. exact (patient_archive cd sched l n). Qed.
Print Assumptions C74_patient.
(** So the entries of the calls that ended well are listed and read back, and no others, whichever calls were given up, wherever. *)
Theorem C74_others cd cfg sched s l n : codec_ok cd -> Forall (fun x => op_good (fst x)) l ->
  let '(xs, r, w) := d_run_archive cd sched l n in
  let d := w_bytes w in
  r = Finished (Ok tt) -> unambiguous cd cfg (map fst l) (told_ops xs) (w_zip64 w) d -> s_data s = d -> nofail (s_sched s) ->
  exists f, fst (file cfg s) = Ok f /\ mem_new cfg d = Ok {| m_data := d; m_file := f |} /\
    comment_reads_as (last_comment (map fst l)) (f_comment f) /\
    Forall2 (fun x st => exists it, leaves cd (fst x) (snd x) it /\ as_written d it st /\ texts_kept it st) (kept false xs) (f_entries f) /\
    (forall i no64 o data, nth_error (kept false xs) (N.to_nat i) = Some (no64, o) -> holds cd o data ->
       (forall it, leaves cd no64 o it -> straight it) ->
       read_entry cd f i s = Ok data /\ mem_read_entry cd {| m_data := d; m_file := f |} i = Ok data).
Proof. exact (others_kept cd cfg sched s l n). Qed.
Print Assumptions C74_others.
(** If the caller stops when it has given up a call, the sink holds a beginning of what an undisturbed session would have put there,
    whatever calls were still to come. *)
Theorem C74_prefix cd sched l rest xs o w : d_run_ops cd l (zw_new sched) = (xs ++ [(o, Left)], w) -> Forall (fun x => well (snd x) = true) xs ->
  prefix_of (w_bytes w) (w_bytes (snd (run_until stops (calls cd (map fst l ++ rest)) (zw_new [])))).
Proof. exact (left_prefix cd sched l rest xs o w). Qed.
Print Assumptions C74_prefix.
Theorem C74_prefix_close cd sched l n : let '(xs, r, w) := d_run_archive cd sched l n in
  Forall (fun x => well (snd x) = true) xs -> prefix_of (w_bytes w) (w_bytes (snd (run_until stops (calls cd (map fst l)) (zw_new [])))).
Proof. exact (close_prefix cd sched l n). Qed.
Print Assumptions C74_prefix_close.

(** five calls on a sink that is often not ready; the second is left in its data, the third while it is opened *)
Definition moody : list wevent :=
  [WPending; WAccept 3; WPending; WAccept 200; WAccept 200; WAccept 200; WAccept 200; WAccept 200; WAccept 200; WAccept 200; WAccept 200; WAccept 200; WAccept 2; WPending;
   WPending; WAccept 9; WPending].
Definition hurried : list (wop * nat) :=
  [(OpWhole entry1 [x68; x69; x21], 2%nat); (OpWhole entry2 [x09; x0a], 0%nat);
   (OpStream false entry2 [SWriteAll [x01; x02; x03; x04; x05]] true, 0%nat);
   (OpComment [x68; x65; x79], 0%nat); (OpStream false entry2 [SWriteAll [x07; x08]] true, 1%nat)].
Example C74_case : codec_ok toy /\ Forall (fun x => op_good (fst x)) hurried /\
  (let '(xs, r, w) := d_run_archive toy moody hurried 3 in
   map snd xs = [Finished (Ok tt); Left; Left; Finished (Ok tt); Finished (Ok tt)] /\ r = Finished (Ok tt) /\ len (kept false xs) = 2 /\
   unambiguous toy cfg0 (map fst hurried) (told_ops xs) (w_zip64 w) (w_bytes w)).
Proof.
  split; [exact toy_ok|]. split; [repeat constructor; cbn; discriminate|].
  assert (H : let '(xs, r, w) := d_run_archive toy moody hurried 3 in
    map snd xs = [Finished (Ok tt); Left; Left; Finished (Ok tt); Finished (Ok tt)] /\ r = Finished (Ok tt) /\ len (kept false xs) = 2 /\
    clear_end (told_ops xs) (w_zip64 w) (last_comment (map fst hurried)) (w_bytes w) = true) by (vm_compute; repeat split; reflexivity).
  destruct (d_run_archive toy moody hurried 3) as [[xs r] w]. destruct H as (H1 & H2 & H3 & H4). split; [exact H1|]. split; [exact H2|]. split; [exact H3|].
  exact (clear_end_ok toy _ _ _ _ H4).
Qed.
Example C74_prefix_case : exists xs o w, d_run_ops toy (firstn 2 hurried) (zw_new moody) = (xs ++ [(o, Left)], w) /\ Forall (fun x => well (snd x) = true) xs /\
  len (w_bytes w) = 84.
Proof.
  eexists [_], _, _. split; [vm_compute; reflexivity|]. split; [repeat constructor|vm_compute; reflexivity].
Qed.
(** [close] given up half way *)
Example C74_close_case : let '(xs, r, w) := d_run_archive toy [WAccept 20; WPending] [(OpComment [x68], 0%nat)] 0 in
  Forall (fun x => well (snd x) = true) xs /\ r = Left /\ len (w_bytes w) = 4.
Proof. vm_compute. repeat split; repeat constructor. Qed.
