(** Property theorems: bytes behind an archive. *)
From Verif Require Import Base BaseFacts SpecFormat SpecArchive SpecRead SpecWrite SpecStrict SpecExact SpecPad ZString ZDate Headers ExtraField Entry
  IO IOFacts Reader EntryReader Writer Samples WriteSamples Properties_Exact Properties_Archive PadProofs.

(** * C82. What follows an archive does not matter, as long as the end record is among the last 67456 bytes. *)
Theorem C82_behind cfg d f t s a : fst (file cfg (cursor d)) = Ok f -> orderly d -> no_new_end d t ->
  found_at (le 4 0x06054b50) d a -> (forall q, found_at (le 4 0x06054b50) d q -> q <= a) -> s_data s = d ++ t -> nofail (s_sched s) ->
  fst (file cfg s) = if len d + len t <=? a + 67456 then Ok f else Err UnableToLocateEOCDR.
Proof. exact (padded cfg d f t s a). Qed.
Print Assumptions C82_behind.
Theorem C82_entries cd f i s d t e : s_data s = d ++ t -> nofail (s_sched s) -> entry_at f i = Some e ->
  st_file_offset e + 30 <= len d -> data_start d (st_file_offset e) + en_compressed_size (st_entry e) <= len d ->
  read_entry cd f i s = read_entry cd f i (cursor d).
Proof. exact (padded_entry cd f i s d t e). Qed.
Print Assumptions C82_entries.
(** An archive this crate wrote, with anything behind it. *)
Theorem C82_written cd cfg sched s l t : codec_ok cd -> Forall op_good l ->
  let '(xs, r, w) := run_archive cd sched l in
  let d := w_bytes w in
  r = Ok tt -> unambiguous cd cfg l xs (w_zip64 w) d -> no_new_end d t -> s_data s = d ++ t -> nofail (s_sched s) ->
  if 22 + len (last_comment l) + len t <=? 67456 then
    exists f, fst (file cfg (cursor d)) = Ok f /\ fst (file cfg s) = Ok f /\ f_zip64 f = w_zip64 w /\ comment_reads_as (last_comment l) (f_comment f) /\
      Forall2 (fun x st => exists it, leaves cd (fst x) (snd x) it /\ as_written d it st /\ texts_kept it st) (succeeded false xs) (f_entries f) /\
      (forall i no64 o data, nth_error (succeeded false xs) (N.to_nat i) = Some (no64, o) -> holds cd o data ->
         (forall it, leaves cd no64 o it -> straight it) -> read_entry cd f i s = Ok data)
  else fst (file cfg s) = Err UnableToLocateEOCDR.
Proof. exact (written_padded cd cfg sched s l t). Qed.
Print Assumptions C82_written.
(** Zeros, as tapes and disk images have them, never look like an end. *)
Theorem C82_zeros d n : no_new_end d (repeat x00 n).
Proof. exact (zeros_fine d n). Qed.
Print Assumptions C82_zeros.
Lemma sample_orderly : orderly sample64.
Proof.
  intros x rs S. destruct (C65_single _ _ _ _ _ S (proj1 C65_case)) as [-> ->]. split; [vm_compute; discriminate|].
  intros e R. right.
  assert (H : exists b l, rows_to (past 88 sample64) [row1; row2] (b :: l)).
  { do 2 eexists. eapply rt_more; [row_stands|]. eapply rt_more; [row_stands|]. apply rt_none. }
  destruct H as (b & l & H). rewrite (rows_to_one _ _ _ R _ H). discriminate.
Qed.
Example C82_case : orderly sample64 /\ found_at (le 4 0x06054b50) sample64 299 /\ (forall q, found_at (le 4 0x06054b50) sample64 q -> q <= 299) /\
  (exists f, fst (file cfg0 (cursor sample64)) = Ok f /\ fst (file cfg0 (cursor (sample64 ++ repeat x00 50))) = Ok f /\ len (f_entries f) = 2 /\
     read_entry toy f 1 (cursor (sample64 ++ repeat x00 50)) = read_entry toy f 1 (cursor sample64) /\ read_entry toy f 1 (cursor sample64) = Ok [x78; x79]).
Proof.
  split; [exact sample_orderly|]. split; [exact (ExactProofs.ends_found _ _ (proj1 (proj1 C65_case)))|]. split; [exact (proj1 (proj1 (proj1 C65_case)))|].
  eexists. split; [vm_compute; reflexivity|]. vm_compute. repeat split; reflexivity.
Qed.
(** the longest padding of zeros that is let pass behind an archive with a comment of three bytes *)
Example C82_case_written : codec_ok toy /\ Forall op_good history /\ let '(xs, r, w) := run_archive toy bumpy history in
  r = Ok tt /\ unambiguous toy cfg0 history xs (w_zip64 w) (w_bytes w) /\ (forall n, no_new_end (w_bytes w) (repeat x00 n)) /\
  (forall n, N.of_nat n = 67431 -> (22 + len (last_comment history) + len (repeat x00 n) <=? 67456) = true) /\
  (forall n, N.of_nat n = 67432 -> (22 + len (last_comment history) + len (repeat x00 n) <=? 67456) = false).
Proof.
  split; [exact toy_ok|]. split; [exact history_good|]. pose proof history_clear as U.
  assert (H : snd (fst (run_archive toy bumpy history)) = Ok tt) by (vm_compute; reflexivity).
  destruct (run_archive toy bumpy history) as [[xs r] w]. split; [exact H|]. split; [exact U|]. split; [intro n; apply C82_zeros|].
  assert (L : len (last_comment history) = 3) by reflexivity. rewrite L.
  split; intros n E; unfold len; rewrite repeat_length, E; reflexivity.
Qed.
(** Without it: a record that runs into the end of the data takes what is appended for part of its name. *)
Example C82_greedy : ~ orderly swallow /\ no_new_end swallow [x00] /\
  exists f g, fst (file cfg0 (cursor swallow)) = Ok f /\ fst (file cfg0 (cursor (swallow ++ [x00]))) = Ok g /\
  map (fun e => len (zs_raw (en_filename (st_entry e)))) (f_entries f) = [22] /\ map (fun e => len (zs_raw (en_filename (st_entry e)))) (f_entries g) = [23].
Proof.
  split; [|split; [exact (C82_zeros swallow 1)|do 2 eexists; split; [vm_compute; reflexivity|]; split; [vm_compute; reflexivity|]; vm_compute; split; reflexivity]].
  intro O.
  assert (H : exists f, fst (file cfg0 (cursor swallow)) = Ok f) by (eexists; vm_compute; reflexivity). destruct H as (f & F).
  destruct (C65_reported _ _ _ F) as (x & rs & S & R). pose proof (padded cfg0 swallow f [x00] (cursor (swallow ++ [x00])) (n_at x) F O (C82_zeros swallow 1)
    (ExactProofs.ends_found _ _ (proj1 S)) (proj1 (proj1 S)) eq_refl ltac:(constructor)) as P.
  assert (L : map (fun e => len (zs_raw (en_filename (st_entry e)))) (f_entries f) = [22]).
  { assert (E : fst (file cfg0 (cursor swallow)) = Ok f) by exact F. vm_compute in E. injection E as <-. reflexivity. }
  destruct (_ <=? _); [|vm_compute in P; discriminate P].
  assert (M : match fst (file cfg0 (cursor (swallow ++ [x00]))) with Ok f => map (fun e => len (zs_raw (en_filename (st_entry e)))) (f_entries f) = [23] | _ => False end) by (vm_compute; reflexivity).
  rewrite P, L in M. discriminate M.
Qed.
