(** Property theorems: what readers other than this crate's see of written archives. *)
From Verif Require Import Base SpecFormat SpecCrc SpecArchive SpecRead SpecWrite SpecSize SpecStrict SpecAccept SpecLax SpecRepack SpecInterop ZString ZDate Headers ExtraField Entry
  IO Reader EntryReader Writer Samples WriteSamples EndProofs InteropProofs Properties_Lax.

(** * C94. A reader that follows the specification sees in an archive exactly what was written. *)
(** The writer's calls may have failed or been dropped in between; only the last close has to work. *)
Theorem C94_seen cd sched l : codec_ok cd -> Forall op_good l ->
  let '(xs, r, w) := run_archive cd sched l in
  let d := w_bytes w in
  r = Ok tt -> len d < 0x10000000000000000 -> Forall (fun x => too_many (snd x) = false) xs -> sizes_tell cd d (succeeded false xs) ->
  others_clear (w_zip64 w) (last_comment l) d -> (w_zip64 w = true \/ len d <= 0xFFFFFFFF) ->
  (len d <= 0xFFFFFFFF \/ ~ found_at (le 4 0x04034b50) d 0xFFFFFFFF) -> Forall (unexchanged cd) (succeeded false xs) -> Forall (told_right cd) (succeeded false xs) ->
  exists vs, sights cd d = Some vs /\ Forall2 (fun x v => seen_as cd (snd x) v) (succeeded false xs) vs.
Proof. exact (others_see cd sched l). Qed.
Print Assumptions C94_seen.
(** What this crate's reader needs of the end (C01) is enough for other readers ... *)
Theorem C94_clear zip64 comment d : end_clear zip64 comment d -> others_clear zip64 comment d.
Proof. exact (end_clear_others zip64 comment d). Qed.
Print Assumptions C94_clear.
(** ... and they need less: without a comment, there is never a second end record. *)
Theorem C94_commentless zip64 d : (zip64 = false -> ~ complete_end64 d 22) -> others_clear zip64 [] d.
Proof.
  intro Z. split; [discriminate|]. split; [|exact Z]. intros q C. pose proof (complete_bound d q C). change (len (@nil byte)) with 0. lia.
Qed.
Print Assumptions C94_commentless.

(** a session with failed, pending and dropped work in it *)
Example C94_case : codec_ok toy /\ Forall op_good history /\
  let '(xs, r, w) := run_archive toy bumpy history in
  let d := w_bytes w in
  r = Ok tt /\ len d <= 0xFFFFFFFF /\ Forall (fun x => too_many (snd x) = false) xs /\ others_clear (w_zip64 w) (last_comment history) d /\
  w_zip64 w = true /\ Forall (unexchanged toy) (succeeded false xs) /\ Forall (told_right toy) (succeeded false xs) /\ len (succeeded false xs) = 3 /\
  match sights toy d with Some vs => map v_content vs = [[x68; x69; x21]; [x01; x02; x03; x04; x05; x06]; [x09]] | None => False end.
Proof.
  split; [exact toy_ok|]. split; [repeat constructor; cbn; discriminate|].
  assert (H : let '(xs, r, w) := run_archive toy bumpy history in
    r = Ok tt /\ (len (w_bytes w) <=? 0xFFFFFFFF) = true /\ Forall (fun x => too_many (snd x) = false) xs /\ clear_end xs (w_zip64 w) (last_comment history) (w_bytes w) = true /\
    w_zip64 w = true /\ succeeded false xs = [(false, nth 0 history OpForceZip64); (false, nth 1 history OpForceZip64); (false, nth 4 history OpForceZip64)] /\
    match sights toy (w_bytes w) with Some vs => map v_content vs = [[x68; x69; x21]; [x01; x02; x03; x04; x05; x06]; [x09]] | None => False end).
  { vm_compute. split; [reflexivity|]. split; [reflexivity|]. split; [repeat constructor|]. repeat split; reflexivity. }
  destruct (run_archive toy bumpy history) as [[xs r] w]. destruct H as (H1 & H2 & H3 & H4 & H5 & H6 & H7). apply N.leb_le in H2.
  pose proof (clear_end_ok toy history _ _ _ H4) as (_ & _ & _ & E & _). apply end_clear_others in E.
  rewrite H6. cbv zeta. repeat match goal with |- _ /\ _ => split end; try assumption; try reflexivity.
  - repeat constructor; apply unexchanged_free.
  - repeat constructor.
Qed.
(** A comment that is the signature of an end record: this crate's reader does not get past it, others do. *)
Example C94_more : let '(_, r, w) := run_archive toy [] [OpComment (le 4 0x06054b50); OpWhole entry1 [x68; x69; x21]] in
  r = Ok tt /\ fst (file cfg0 (cursor (w_bytes w))) = Err (UpstreamReadError UnexpectedEof) /\
  match sights toy (w_bytes w) with Some vs => map v_content vs = [[x68; x69; x21]] | None => False end.
Proof. vm_compute. repeat split; reflexivity. Qed.
(** A comment that is an end record: others do not either. *)
Example C94_needed : let '(_, r, w) := run_archive toy [] [OpComment (end_record 0 0 0 0 0 0 0); OpWhole entry1 [x68; x69; x21]] in
  r = Ok tt /\ (exists q, complete_end (w_bytes w) q /\ len (w_bytes w) < q + 22 + 22) /\ sights toy (w_bytes w) = None.
Proof.
  assert (H : let '(_, r, w) := run_archive toy [] [OpComment (end_record 0 0 0 0 0 0 0); OpWhole entry1 [x68; x69; x21]] in
    r = Ok tt /\ w_bytes w = take (len (w_bytes w) - 22) (w_bytes w) ++ le 4 0x06054b50 ++ repeat x00 16 ++ le 2 0 ++ [] /\
    len (take (len (w_bytes w) - 22) (w_bytes w)) = len (w_bytes w) - 22 /\ (22 <? len (w_bytes w)) = true /\ sights toy (w_bytes w) = None)
    by (vm_compute; repeat split; reflexivity).
  destruct (run_archive toy [] _) as [[xs r] w]. destruct H as (H1 & H2 & H3 & H4 & H5). apply N.ltb_lt in H4. split; [exact H1|]. split; [|exact H5].
  exists (len (w_bytes w) - 22). split; [|lia]. exists (take (len (w_bytes w) - 22) (w_bytes w)), (repeat x00 16), []. split; [exact H2|]. split; [exact H3|]. split; [reflexivity|discriminate].
Qed.
