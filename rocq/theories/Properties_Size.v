(** Property C53. *)
From Verif Require Import Base BaseFacts SpecFormat SpecCrc SpecUtf8 SpecArchive SpecRead SpecWrite ZString ZDate Headers ExtraField Entry IO IOFacts Reader
  EntryReader Writer EntryProofs Samples WriteSamples SpecOrdinary OrdinaryProofs AllWork Utf8 Utf8Facts SpecSize SizeProofs SpecSession SpecSizeAny SizeAnyProofs.

(** * C53. How long an archive gets can be told before it is written. *)
(** For data that goes into the archive as it is: the length, and whether ZIP64 records are written, follow from the
    calls. *)
Theorem C53_size cd sched l : enc_takes cd -> obliging sched -> Forall handy l -> Forall measured_op l -> len l <= 65535 -> ops_size l <= 0xFFFFFFFF ->
  let '(xs, r, w) := run_archive cd sched l in
  xs = map (fun o => (o, Ok tt)) l /\ r = Ok tt /\ len (w_bytes w) = session_size l /\ w_zip64 w = existsb uses_zip64 l.
Proof. exact (session_size_ok cd sched l). Qed.
Print Assumptions C53_size.
(** So that the round trip can be promised from the calls alone. *)
Theorem C53_round_trip cd cfg sched s l : codec_ok cd -> obliging sched -> Forall handy l -> Forall measured_op l -> Forall ordinary_op l -> Forall proper l -> ordinary l ->
  entry_mem_size cfg <= 0x1000000000000 -> session_size l < 0x5000000 ->
  let '(xs, r, w) := run_archive cd sched l in
  let d := w_bytes w in
  xs = map (fun o => (o, Ok tt)) l /\ r = Ok tt /\ len d = session_size l /\
  (s_data s = d -> nofail (s_sched s) ->
   exists f, fst (file cfg s) = Ok f /\ mem_new cfg d = Ok {| m_data := d; m_file := f |} /\ f_zip64 f = existsb uses_zip64 l /\
     comment_reads_as (last_comment l) (f_comment f) /\
     Forall2 (fun o st => exists e, op_entry o = Some e /\ comes_back e st) (filter writes_entry l) (f_entries f) /\
     (forall i o data, nth_error (filter writes_entry l) (N.to_nat i) = Some o -> holds cd o data ->
        read_entry cd f i s = Ok data /\ mem_read_entry cd {| m_data := d; m_file := f |} i = Ok data)).
Proof. exact (sized_round_trip cd cfg sched s l). Qed.
Print Assumptions C53_round_trip.

(** Compressed data counts as long as it has become; what it becomes does not depend on the session. *)
Theorem C53_compressed cd : enc_takes cd -> exists data, (forall o, stores cd o (data o)) /\
  forall sched l, obliging sched -> Forall handy l -> Forall moderate l -> len l <= 65535 -> ops_size_with data l <= 0xFFFFFFFF ->
  let '(xs, r, w) := run_archive cd sched l in
  xs = map (fun o => (o, Ok tt)) l /\ r = Ok tt /\ (len (w_bytes w) < 0x10000000000000000 -> len (w_bytes w) = session_size_with data l).
Proof. exact (any_session_size cd). Qed.
Print Assumptions C53_compressed.

(** a name that needs a Unicode field, streams closed and dropped, precompressed data *)
Definition entry4 : zentry := mk_entry {| zs_enc := EUtf8; zs_raw := [xc3; xa9]; zs_alt := Some [x82] |} (utf8 [x6b]) Stored [XUnknown 0xCAFE 2 [x01; x02]].
Definition chores : list wop := [OpWhole entry1 [x07; x07]; OpComment [x68; x69]; OpWholePre entry2 [x01; x02; x03]; OpWhole entry4 []].
Definition more_chores : list wop :=
  chores ++ [OpStream false entry4 [SWriteAll [x09]; SFlush; SWriteAll [x08; x07]] true; OpStream true entry2 [SWriteAll [x01]] false;
             OpStream true entry2 [SWriteAll [x01]; SWriteAll [x02]] true].
Lemma roomy2 : roomy entry2. Proof. unfold roomy. vm_compute. repeat split; discriminate. Qed.
Lemma roomy4 : roomy entry4. Proof. unfold roomy. vm_compute. repeat split; discriminate. Qed.
Lemma roomy_1 : roomy entry1. Proof. unfold roomy. vm_compute. repeat split; discriminate. Qed.
Lemma chores_good : Forall op_good more_chores. Proof. repeat constructor; cbn; discriminate. Qed.
Lemma chores_handy : Forall handy more_chores.
Proof.
  pose proof chores_good as G. rewrite Forall_forall in G. apply Forall_forall. intros o I. split; [|split; [now apply G|]]; cbn in I;
    repeat (destruct I as [<-|I]; [first [discriminate | split; [first [discriminate | exact (fun x => x)] | first [exact roomy_1 | exact roomy2 | exact roomy4 | exact Logic.I]]]|]); elim I.
Qed.
Lemma chores_measured : Forall measured_op more_chores.
Proof.
  assert (U : unsaid entry1 /\ unsaid entry2 /\ unsaid entry4) by (unfold unsaid, none_of; repeat split; repeat constructor; intros; discriminate).
  destruct U as (U1 & U2 & U4).
  repeat (constructor; [split; [first [reflexivity | discriminate | now left | now right | exact I]|first [exact U1 | exact U2 | exact U4 | exact I]]|]). constructor.
Qed.
(** an ordinary one, for the round trip *)
Definition duties : list wop := [OpWhole entry1 [x07; x07]; OpComment [x68; x69]; OpStream false entry1 [SWriteAll [x09]] true; OpWhole entry1 []].
Lemma duties_meet : Forall handy duties /\ Forall measured_op duties /\ Forall ordinary_op duties /\ Forall proper duties /\ ordinary duties /\ session_size duties < 0x5000000.
Proof.
  assert (G : Forall op_good duties) by (repeat constructor; cbn; discriminate).
  assert (U : forall l, utf8_valid l = true -> sound_string (utf8 l)) by (intros l H; split; [intros _; now apply utf8_valid_iff|discriminate]).
  assert (Q : ordinary_entry entry1) by (unfold ordinary_entry, plain_text, free_of; repeat split; vm_compute; intuition discriminate).
  assert (U1 : unsaid entry1) by (unfold unsaid, none_of; repeat split; repeat constructor; intros; discriminate).
  split; [|split; [|split; [|split; [|split]]]].
  - rewrite Forall_forall in G. apply Forall_forall. intros o I. split; [|split; [now apply G|]]; cbn in I;
    repeat (destruct I as [<-|I]; [first [discriminate | split; [first [discriminate | exact (fun x => x)] | first [exact roomy_1 | exact Logic.I]]]|]); elim I.
  - repeat (constructor; [split; [first [reflexivity | now right | exact I]|first [exact U1 | exact I]]|]). constructor.
  - repeat (constructor; [first [exact Q | exact I]|]). constructor.
  - repeat (constructor; [first [exact I | split; apply U; vm_compute; reflexivity]|]). constructor.
  - unfold ordinary, free_of. vm_compute. split; [reflexivity|]. split; [discriminate|]. intuition discriminate.
  - vm_compute. reflexivity.
Qed.
Example C53_case : codec_ok toy /\ obliging bumpy /\ Forall handy more_chores /\ Forall measured_op more_chores /\
  session_size chores = 353 /\ existsb uses_zip64 chores = false /\ session_size more_chores = 858 /\
  (let '(_, _, w) := run_archive toy bumpy chores in len (w_bytes w) = session_size chores) /\
  (let '(_, _, w) := run_archive toy bumpy more_chores in len (w_bytes w) = session_size more_chores).
Proof.
  split; [exact toy_ok|]. split; [repeat constructor; discriminate|]. split; [exact chores_handy|]. split; [exact chores_measured|].
  vm_compute. repeat split; reflexivity.
Qed.

(** compressed whole and as streams, closed and dropped *)
Definition packed : zentry := mk_entry {| zs_enc := EUtf8; zs_raw := [xc3; xa9]; zs_alt := Some [x82] |} (utf8 [x6b]) Deflate [XUnknown 0xCAFE 2 [x01; x02]].
Definition packing : list wop :=
  [OpWhole packed [x07; x08; x09]; OpStream false packed [SWriteAll [x01]; SFlush; SWriteAll [x02]] true; OpComment [x68];
   OpStream false packed [SWriteAll [x03; x04]] false; OpWhole entry1 [x07]].
Example C53_packing : Forall handy packing /\ Forall moderate packing /\
  let data o := match o with
    | OpWhole e d => if match en_compression e with Stored => true | _ => false end then d else flat_map (fun b => [x01; b]) d ++ [x00]
    | OpStream _ _ body closed => flat_map (fun b => [x01; b]) (fed_bytes body) ++ if closed then [x00] else []
    | _ => [] end in
  session_size_with data packing = 615 /\
  let '(xs, r, w) := run_archive toy bumpy packing in r = Ok tt /\ len (w_bytes w) = session_size_with data packing.
Proof.
  assert (R : roomy packed) by (unfold roomy; vm_compute; repeat split; discriminate).
  assert (G : Forall op_good packing) by (repeat constructor; cbn; discriminate).
  assert (U : unsaid entry1 /\ unsaid packed) by (unfold unsaid, none_of; repeat split; repeat constructor; intros; discriminate). destruct U as (U1 & U2).
  split; [|split; [|vm_compute; repeat split; reflexivity]].
  - rewrite Forall_forall in G. apply Forall_forall. intros o I. split; [|split; [now apply G|]]; cbn in I;
      repeat (destruct I as [<-|I]; [first [discriminate | split; [first [discriminate | exact (fun x => x)] | first [exact roomy_1 | exact R | exact Logic.I]]]|]); elim I.
  - repeat (constructor; [split; [first [exact I|discriminate]|first [exact U1 | exact U2 | exact I]]|]). constructor.
Qed.
