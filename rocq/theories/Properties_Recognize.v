(** Property theorems: archives that are recognised for what they are. *)
From Verif Require Import Base SpecFormat SpecCrc SpecUtf8 SpecArchive SpecRead SpecWrite ZString ZDate Headers ExtraField Entry
  IO Locator Reader EntryReader Writer IOFacts Samples WriteSamples Properties_Archive RecognizeProofs.

(** * C79. Opening an archive tells whether it is taken for what it is. *)
(** The condition under which the end of the archive can be told is met exactly if the archive opens with the comment and
    the kind of end it was written with. *)
Theorem C79_exact cd cfg sched s l : codec_ok cd -> Forall op_good l ->
  let '(xs, r, w) := run_archive cd sched l in
  let d := w_bytes w in
  r = Ok tt -> len d < 0x10000000000000000 -> (w_zip64 w = true -> Forall (fun x => too_many (snd x) = false) xs) ->
  sizes_tell cd d (succeeded false xs) -> len (succeeded false xs) * entry_mem_size cfg <= 0x7FFFFFFFFFFFFFFF -> s_data s = d -> nofail (s_sched s) ->
  (end_clear (w_zip64 w) (last_comment l) d <->
   exists f, fst (file cfg s) = Ok f /\ f_zip64 f = w_zip64 w /\ zs_raw (f_comment f) = last_comment l).
Proof. exact (recognition cd cfg sched s l). Qed.
Print Assumptions C79_exact.
(** So a caller can open what was written and compare these two: if they are right, everything else is. *)
Theorem C79_checked cd cfg sched s l f : codec_ok cd -> Forall op_good l ->
  let '(xs, r, w) := run_archive cd sched l in
  let d := w_bytes w in
  r = Ok tt -> len d < 0x10000000000000000 -> (w_zip64 w = true -> Forall (fun x => too_many (snd x) = false) xs) ->
  sizes_tell cd d (succeeded false xs) -> len (succeeded false xs) * entry_mem_size cfg <= 0x7FFFFFFFFFFFFFFF -> s_data s = d -> nofail (s_sched s) ->
  fst (file cfg s) = Ok f -> f_zip64 f = w_zip64 w -> zs_raw (f_comment f) = last_comment l ->
  Forall2 (fun x st => exists it, leaves cd (fst x) (snd x) it /\ as_written d it st /\ texts_kept it st) (succeeded false xs) (f_entries f) /\
  (forall i no64 o data, nth_error (succeeded false xs) (N.to_nat i) = Some (no64, o) -> holds cd o data ->
     (forall it, leaves cd no64 o it -> straight it) -> read_entry cd f i s = Ok data).
Proof. exact (checked_back cd cfg sched s l f). Qed.
Print Assumptions C79_checked.
Example C79_case : codec_ok toy /\ Forall op_good history /\
  let '(xs, r, w) := run_archive toy bumpy history in
  r = Ok tt /\ unambiguous toy cfg0 history xs (w_zip64 w) (w_bytes w) /\
  exists f, fst (file cfg0 (cursor (w_bytes w))) = Ok f /\ f_zip64 f = w_zip64 w /\ zs_raw (f_comment f) = last_comment history /\ len (f_entries f) = 3.
Proof.
  split; [exact toy_ok|]. split; [exact history_good|]. pose proof history_clear as U.
  assert (H : let '(xs, r, w) := run_archive toy bumpy history in r = Ok tt /\
    match fst (file cfg0 (cursor (w_bytes w))) with
    | Ok f => f_zip64 f = w_zip64 w /\ zs_raw (f_comment f) = last_comment history /\ len (f_entries f) = 3 | _ => False end) by (vm_compute; repeat split; reflexivity).
  destruct (run_archive toy bumpy history) as [[xs r] w]. destruct H as [R H]. split; [exact R|]. split; [exact U|].
  destruct (fst (file cfg0 (cursor (w_bytes w)))) as [f|e|p]; [|easy|easy]. exists f. split; [reflexivity|exact H].
Qed.
(** One that opens and is not what was written: the archive comment holds an end record. Nothing of the entry is seen, and
    the comment is another. *)
Definition posing : list wop := [OpWhole entry1 [x68; x69; x21]; OpComment (end_record 0 0 0 0 0 0 1 ++ [x21])].
Example C79_posing : Forall op_good posing /\
  let '(xs, r, w) := run_archive toy [] posing in
  r = Ok tt /\ Forall (fun x => worked (snd x) = true) xs /\
  exists f, fst (file cfg0 (cursor (w_bytes w))) = Ok f /\ f_zip64 f = w_zip64 w /\ f_entries f = [] /\ zs_raw (f_comment f) = [x21] /\ len (last_comment posing) = 23.
Proof.
  split; [repeat constructor; cbn; discriminate|].
  assert (H : let '(xs, r, w) := run_archive toy [] posing in r = Ok tt /\ Forall (fun x => worked (snd x) = true) xs /\
    match fst (file cfg0 (cursor (w_bytes w))) with
    | Ok f => f_zip64 f = w_zip64 w /\ f_entries f = [] /\ zs_raw (f_comment f) = [x21] /\ len (last_comment posing) = 23 | _ => False end).
  { vm_compute. split; [reflexivity|]. split; [repeat constructor|]. repeat split; reflexivity. }
  destruct (run_archive toy [] posing) as [[xs r] w]. destruct H as (R & W & H). split; [exact R|]. split; [exact W|].
  destruct (fst (file cfg0 (cursor (w_bytes w)))) as [f|e|p]; [|easy|easy]. exists f. split; [reflexivity|exact H].
Qed.
