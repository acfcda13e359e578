(** Property C87. *)
From Verif Require Import Base BaseFacts SpecFormat SpecCrc SpecArchive SpecRead ZString ZDate Headers ExtraField Entry IO IOFacts Reader EntryReader Writer SpecWrite Samples WriteSamples
  SpecTold ToldProofs Properties_Archive.

(** * C87. The archive tells what was written. *)
(** Two sessions that end in the same bytes, both of them recognisable for what they are, wrote the same comment and, entry by
    entry, the same names, comments, methods, dates, attributes, check values and data. *)
Theorem C87_told_partial cd cfg sched1 sched2 l1 l2 : codec_ok cd -> Forall op_good l1 -> Forall op_good l2 ->
  let '(xs1, r1, w1) := run_archive cd sched1 l1 in
  let '(xs2, r2, w2) := run_archive cd sched2 l2 in
  r1 = Ok tt -> r2 = Ok tt -> unambiguous cd cfg l1 xs1 (w_zip64 w1) (w_bytes w1) -> unambiguous cd cfg l2 xs2 (w_zip64 w2) (w_bytes w2) ->
  w_bytes w1 = w_bytes w2 ->
  w_zip64 w1 = w_zip64 w2 /\ last_comment l1 = last_comment l2 /\
  Forall2 (fun x y => exists a b, leaves cd (fst x) (snd x) a /\ leaves cd (fst y) (snd y) b /\ indistinct a b) (succeeded false xs1) (succeeded false xs2) /\
  (forall i n1 o1 d1 n2 o2 d2, nth_error (succeeded false xs1) i = Some (n1, o1) -> nth_error (succeeded false xs2) i = Some (n2, o2) ->
     holds cd o1 d1 -> holds cd o2 d2 -> (forall it, leaves cd n1 o1 it -> straight it) -> (forall it, leaves cd n2 o2 it -> straight it) -> d1 = d2).
Proof. exact (told_apart cd cfg sched1 sched2 l1 l2). Qed.
Print Assumptions C87_told_partial.
(** the same entry, given whole and given packed already, with calls that leave nothing in between *)
Definition said_one : list wop := [OpWhole (mk_entry (utf8 [x61]) (utf8 []) Deflate []) [x68; x69]; OpComment [x6b]].
Definition said_two : list wop :=
  [OpComment [x6c]; OpWholePre (set_uncompressed_size (set_crc32 (mk_entry (utf8 [x61]) (utf8 []) Deflate []) (crc32_spec [x68; x69])) 2) [x01; x68; x01; x69; x00];
   OpComment [x6b]].
Lemma said_good : Forall op_good said_one /\ Forall op_good said_two.
Proof. split; repeat constructor; cbn; discriminate. Qed.
Example C87_case : codec_ok toy /\ Forall op_good said_one /\ Forall op_good said_two /\
  let '(xs1, r1, w1) := run_archive toy [] said_one in let '(xs2, r2, w2) := run_archive toy bumpy said_two in
  r1 = Ok tt /\ r2 = Ok tt /\ unambiguous toy cfg0 said_one xs1 (w_zip64 w1) (w_bytes w1) /\ unambiguous toy cfg0 said_two xs2 (w_zip64 w2) (w_bytes w2) /\
  w_bytes w1 = w_bytes w2 /\ len (succeeded false xs1) = 1.
Proof.
  split; [exact toy_ok|]. split; [exact (proj1 said_good)|]. split; [exact (proj2 said_good)|].
  assert (H : let '(xs1, r1, w1) := run_archive toy [] said_one in let '(xs2, r2, w2) := run_archive toy bumpy said_two in
    (r1, r2) = (Ok tt, Ok tt) /\ clear_end xs1 (w_zip64 w1) (last_comment said_one) (w_bytes w1) = true /\
    clear_end xs2 (w_zip64 w2) (last_comment said_two) (w_bytes w2) = true /\ w_bytes w1 = w_bytes w2 /\ len (succeeded false xs1) = 1).
  { vm_compute. repeat split; reflexivity. }
  destruct (run_archive toy [] said_one) as [[xs1 r1] w1]. destruct (run_archive toy bumpy said_two) as [[xs2 r2] w2].
  destruct H as (R & U1 & U2 & E & L). injection R as -> ->. split; [reflexivity|]. split; [reflexivity|].
  split; [now apply clear_end_ok|]. split; [now apply clear_end_ok|]. split; [exact E|exact L].
Qed.
(** Without that the claim is false: a stream that was given up may hold what another session ends with, and a comment may
    hold what another session writes after it. *)
Definition given_up (fed : bytes) : wop := OpStream false (mk_entry (utf8 [x67]) (utf8 []) Stored []) [SWriteAll fed] false.
Definition fake_end : bytes := end_record 0 0 0 0 0 31 114.
Definition two_faced : list wop := [OpForceNoZip64; given_up fake_end; OpWhole entry1 [x68]].
Definition two_faced_end : bytes := let '(_, _, w) := run_archive toy [] two_faced in drop 53 (w_bytes w).
Theorem C87_refuted : exists l1 l2, Forall op_good l1 /\ Forall op_good l2 /\
  let '(xs1, r1, w1) := run_archive toy [] l1 in let '(xs2, r2, w2) := run_archive toy [] l2 in
  r1 = Ok tt /\ r2 = Ok tt /\ Forall (fun x => worked (snd x) = true) xs1 /\ Forall (fun x => worked (snd x) = true) xs2 /\
  w_bytes w1 = w_bytes w2 /\ succeeded false xs1 = [(true, OpWhole entry1 [x68])] /\ succeeded false xs2 = [].
Proof.
  exists two_faced, [OpForceNoZip64; given_up []; OpComment two_faced_end].
  split; [repeat constructor; cbn; discriminate|]. split; [repeat constructor; cbn; discriminate|].
  vm_compute. repeat split; repeat constructor.
Qed.
Print Assumptions C87_refuted.
