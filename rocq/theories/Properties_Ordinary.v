(** Property C52. *)
From Verif Require Import Base BaseFacts SpecFormat SpecCrc SpecUtf8 SpecArchive SpecRead SpecWrite ZString ZDate Headers ExtraField Entry IO IOFacts Reader
  EntryReader Writer EntryProofs Samples WriteSamples SpecOrdinary OrdinaryProofs AllWork Utf8 Utf8Facts.

(** * C52. What is asked for in the ordinary way is done, and reads back. *)
(** On a sink without faults every call works, and so does [close]. *)
Theorem C52_all_work cd sched l : enc_takes cd -> obliging sched -> Forall handy l ->
  let '(xs, r, w) := run_archive cd sched l in xs = map (fun o => (o, Ok tt)) l /\ r = Ok tt.
Proof. exact (archive_works cd sched l). Qed.
Print Assumptions C52_all_work.
(** Conditions on what the caller hands over, on any sink, for the archive to be told for what it is. *)
Theorem C52_unambiguous cd cfg sched l : enc_takes cd -> Forall op_good l -> ordinary l -> entry_mem_size cfg <= 0x1000000000000 ->
  let '(xs, r, w) := run_archive cd sched l in
  r = Ok tt -> len (w_bytes w) < 0x5000000 ->
  w_zip64 w = true \/ succeeded false xs <> [] /\ Forall ordinary_op l \/ len (w_bytes w) < 42 + len (last_comment l) ->
  unambiguous cd cfg l xs (w_zip64 w) (w_bytes w).
Proof. exact (ordinary_unambiguous cd cfg sched l). Qed.
Print Assumptions C52_unambiguous.
Theorem C52_round_trip cd cfg sched s l : codec_ok cd -> obliging sched -> Forall handy l -> Forall ordinary_op l -> Forall proper l -> ordinary l ->
  entry_mem_size cfg <= 0x1000000000000 ->
  let '(xs, r, w) := run_archive cd sched l in
  let d := w_bytes w in
  xs = map (fun o => (o, Ok tt)) l /\ r = Ok tt /\
  (len d < 0x5000000 -> s_data s = d -> nofail (s_sched s) ->
   exists f, fst (file cfg s) = Ok f /\ mem_new cfg d = Ok {| m_data := d; m_file := f |} /\ f_zip64 f = w_zip64 w /\
     comment_reads_as (last_comment l) (f_comment f) /\
     Forall2 (fun o st => exists e, op_entry o = Some e /\ comes_back e st) (filter writes_entry l) (f_entries f) /\
     (forall i o data, nth_error (filter writes_entry l) (N.to_nat i) = Some o -> holds cd o data ->
        read_entry cd f i s = Ok data /\ mem_read_entry cd {| m_data := d; m_file := f |} i = Ok data)).
Proof. exact (plain_round_trip cd cfg sched s l). Qed.
Print Assumptions C52_round_trip.

Definition entry3 : zentry := mk_entry (utf8 [x62; x2e; x74]) (utf8 [xc3; xa9]) Deflate [XUnknown 0xCAFE 2 [x01; x02]].
Definition errand : list wop :=
  [OpWhole entry1 [x07; x07]; OpComment [x68; x69]; OpWhole entry3 [x01; x02]; OpWhole entry1 []].
(** the same with streams, one of them dropped *)
Definition errands : list wop :=
  errand ++ [OpStream false entry3 [SWriteAll [x09]; SFlush; SWriteAll [x08; x07]] true; OpStream false entry1 [SWriteAll [x01]] false].
Lemma entry1_quiet : ordinary_entry entry1.
Proof. unfold ordinary_entry, plain_text, free_of. repeat split; vm_compute; intuition discriminate. Qed.
Lemma entry3_quiet : ordinary_entry entry3.
Proof. unfold ordinary_entry, plain_text, free_of. repeat split; vm_compute; intuition discriminate. Qed.
Lemma roomy1 : roomy entry1. Proof. unfold roomy. vm_compute. repeat split; discriminate. Qed.
Lemma roomy3 : roomy entry3. Proof. unfold roomy. vm_compute. repeat split; discriminate. Qed.
Lemma errands_good : Forall op_good errands.
Proof. repeat constructor; cbn; discriminate. Qed.
Lemma errands_handy : Forall handy errands.
Proof.
  pose proof errands_good as G. rewrite Forall_forall in G. apply Forall_forall. intros o I. split; [|split; [now apply G|]]; cbn in I;
    repeat (destruct I as [<-|I]; [first [discriminate | split; [first [discriminate | exact (fun x => x)] | first [exact roomy1 | exact roomy3 | exact Logic.I]]]|]); elim I.
Qed.
Lemma errands_quiet : Forall ordinary_op errands.
Proof. repeat (constructor; [first [exact entry1_quiet | exact entry3_quiet | exact I]|]). constructor. Qed.
Lemma errands_proper : Forall proper errands.
Proof.
  assert (U : forall l, utf8_valid l = true -> sound_string (utf8 l)) by (intros l H; split; [intros _; now apply utf8_valid_iff|discriminate]).
  repeat (constructor; [first [exact I | split; apply U; vm_compute; reflexivity]|]). constructor.
Qed.
Lemma errands_few : ordinary errand /\ ordinary errands.
Proof. unfold ordinary, free_of. split; vm_compute; (split; [reflexivity|]); (split; [discriminate|]); intuition discriminate. Qed.
Example C52_case : codec_ok toy /\ obliging bumpy /\
  (Forall handy errand /\ Forall ordinary_op errand /\ Forall proper errand /\ ordinary errand) /\
  (Forall handy errands /\ Forall ordinary_op errands /\ Forall proper errands /\ ordinary errands) /\
  (let '(_, _, w) := run_archive toy bumpy errand in w_zip64 w = false /\ len (w_bytes w) = 309) /\
  (let '(_, _, w) := run_archive toy bumpy errands in w_zip64 w = true /\ len (w_bytes w) = 610).
Proof.
  split; [exact toy_ok|]. split; [repeat constructor; discriminate|].
  pose proof errands_handy as H. pose proof errands_quiet as Q. pose proof errands_proper as P. destruct errands_few as [F1 F2].
  split; [|split; [exact (conj H (conj Q (conj P F2)))|]].
  { unfold errands in H, Q, P. apply Forall_app in H, Q, P. exact (conj (proj1 H) (conj (proj1 Q) (conj (proj1 P) F1))). }
  vm_compute. repeat split; reflexivity.
Qed.
(** Byte 7 matters: a comment that ends like a ZIP64 locator, on an archive without ZIP64. Every call works, and the
    archive does not open. *)
Definition sham : zentry := mk_entry (utf8 [x61]) (utf8 (le 4 0x07064b50 ++ repeat x11 16)) Stored [].
Theorem C52_refuted : exists cd l, codec_ok cd /\ Forall handy l /\ Forall proper l /\ ordinary l /\
  let '(xs, r, w) := run_archive cd [] l in
  xs = map (fun o => (o, Ok tt)) l /\ r = Ok tt /\ mem_new cfg0 (w_bytes w) = Err (UpstreamReadError UnexpectedEof).
Proof.
  exists toy, [OpWhole sham [x68]].
  assert (U : forall l, utf8_valid l = true -> sound_string (utf8 l)) by (intros l H; split; [intros _; now apply utf8_valid_iff|discriminate]).
  split; [exact toy_ok|]. split.
  { constructor; [|constructor]. split; [discriminate|]. split; [repeat constructor; cbn; discriminate|]. split; [discriminate|].
    unfold roomy. vm_compute. repeat split; discriminate. }
  split; [constructor; [split; apply U; vm_compute; reflexivity|constructor]|].
  split; [unfold ordinary, free_of; vm_compute; split; [reflexivity|]; split; [discriminate|exact (fun x => x)]|].
  vm_compute. repeat split; reflexivity.
Qed.
Print Assumptions C52_refuted.
