(** Property theorems: what polled and awaited sessions leave, to the last byte and in the eyes of others. *)
From Verif Require Import Base BaseFacts SpecFormat SpecCrc SpecUtf8 SpecArchive SpecRead SpecWrite SpecPolls SpecEncoder SpecOrdinary SpecLively SpecStrict SpecAccept SpecLax SpecRepack SpecInterop SpecSize SpecImage
  ZString ZDate Headers ExtraField Entry IO IOFacts Reader EntryReader Writer StreamPolls EncoderPolls AwaitedWrites
  Samples WriteSamples EndProofs EncoderSamples LivelySamples PolledImage Properties_Ordinary Properties_Encoder Properties_Lax Properties_Lively.

(** * C103. Polled in any way through any encoder, streams leave the archive that C73 works out from the entries ... *)
Theorem C103_exact cd (E : engine cd) view sched l : enc_takes cd -> engine_ok cd E view ->
  let '(outs, r, w) := visited_archive cd E sched l in
  let xs := map counts_as outs in
  Forall (fun x => op_good (fst x)) xs -> Forall not_ignored outs -> Forall (fun x => dropped (fst x) = false) xs ->
  r = Ok tt -> Forall (fun x => worked (snd x) = true) xs -> len (w_bytes w) < 0x10000000000000000 ->
  (exists its, Forall2 (fun x it => leaves cd (fst x) (snd x) it) (succeeded false xs) its /\
     w_bytes w = archive_image (existsb asks_zip64 (map fst xs)) its (last_comment (map fst xs))) /\
  (Forall (fun x => as_it_is (fst x)) xs -> w_bytes w = session_image (map fst xs)).
Proof. exact (visited_image cd E view sched l). Qed.
Print Assumptions C103_exact.
(** ... and a check passes it exactly if the calls they amount to are ones that pass (as in C93). *)
Theorem C103_checked ver dsc cd (E : engine cd) view sched l : codec_ok cd -> engine_ok cd E view ->
  let '(outs, r, w) := visited_archive cd E sched l in
  let xs := map counts_as outs in
  Forall (fun x => op_good (fst x)) xs -> Forall not_ignored outs -> Forall (fun x => dropped (fst x) = false) xs ->
  r = Ok tt -> Forall (fun x => worked (snd x) = true) xs -> len (w_bytes w) <= 0xFFFFFFFF ->
  others_clear (w_zip64 w) (last_comment (map fst xs)) (w_bytes w) -> Forall (unexchanged cd) (succeeded false xs) ->
  (lax ver dsc cd (w_bytes w) = true <-> Forall (passes ver dsc cd) (succeeded false xs)).
Proof. exact (visited_lax ver dsc cd E view sched l). Qed.
Print Assumptions C103_checked.
(** Awaited around an encoder that does not stop without reason, handy calls leave that archive ... *)
Theorem C103_awaited cd (E : engine cd) view k sched l : enc_takes cd -> engine_ok cd E view -> engine_lively cd E view ->
  obliging sched -> Forall (patient k sched) l -> Forall handy l -> Forall (fun o => dropped o = false) l ->
  let '(outs, r, w) := awaited_archive cd E k sched l in
  outs = map (fun o => (o, Some (Ok tt))) l /\ r = Ok tt /\
  (len (w_bytes w) < 0x10000000000000000 ->
   (exists its, Forall2 (leaves cd false) (filter writes_entry l) its /\ w_bytes w = archive_image (existsb asks_zip64 l) its (last_comment l)) /\
   (Forall as_it_is l -> w_bytes w = session_image l)).
Proof. exact (awaited_image cd E view k sched l). Qed.
Print Assumptions C103_awaited.
(** ... and readers that follow the specification see in it what was written, streams that were dropped or not. *)
Theorem C103_others cd (E : engine cd) view k sched l : codec_ok cd -> engine_ok cd E view -> engine_lively cd E view ->
  obliging sched -> Forall (patient k sched) l -> Forall handy l -> Forall ordinary_op l -> ordinary l -> filter writes_entry l <> [] ->
  let '(outs, r, w) := awaited_archive cd E k sched l in
  outs = map (fun o => (o, Some (Ok tt))) l /\ r = Ok tt /\
  (len (w_bytes w) < 0x5000000 ->
   (Forall (told_right cd) (map (fun o => (false, o)) (filter writes_entry l)) ->
    exists vs, sights cd (w_bytes w) = Some vs /\ Forall2 (seen_as cd) (filter writes_entry l) vs) /\
   (Forall (fun o => dropped o = false) l -> forall ver dsc,
    lax ver dsc cd (w_bytes w) = true <-> Forall (fun o => passes ver dsc cd (false, o)) (filter writes_entry l))).
Proof. exact (awaited_others cd E view k sched l). Qed.
Print Assumptions C103_others.

(** the polled session of C97 without the stream that is dropped *)
Definition polled2 : list visit := firstn 3 polled1 ++ skipn 4 polled1.
Example C103_case : codec_ok toy /\ engine_ok toy (buffered toy) (fun g => g) /\
  let '(outs, r, w) := visited_archive toy (buffered toy) halting polled2 in
  let xs := map counts_as outs in
  Forall (fun x => op_good (fst x)) xs /\ Forall not_ignored outs /\ Forall (fun x => dropped (fst x) = false) xs /\
  r = Ok tt /\ Forall (fun x => worked (snd x) = true) xs /\ len (w_bytes w) = 538 /\
  others_clear (w_zip64 w) (last_comment (map fst xs)) (w_bytes w) /\ Forall (unexchanged toy) (succeeded false xs) /\ len (succeeded false xs) = 3 /\
  lax true true toy (w_bytes w) = true /\ lax true false toy (w_bytes w) = false /\ lax false true toy (w_bytes w) = false.
Proof.
  split; [exact toy_ok|]. split; [exact (buffered_ok toy (proj1 toy_ok))|].
  assert (H : let '(outs, r, w) := visited_archive toy (buffered toy) halting polled2 in
    let xs := map counts_as outs in
    map fst xs = [OpStream false entry2 [SWriteAll [x01; x02; x03; x06; x07]] true; OpComment [x68; x65; x79]; OpStream false entry1 [SWriteAll [x68; x69; x69; x21]] true;
      OpWhole entry2 [x09]] /\
    forallb (fun x => forallb (fun y => match snd y with WErr _ => false | _ => true end) (snd (snd x))) outs = true /\
    r = Ok tt /\ forallb (fun x => worked (snd x)) xs = true /\ len (w_bytes w) = 538 /\ clear_end xs (w_zip64 w) (last_comment (map fst xs)) (w_bytes w) = true /\
    map fst (succeeded false xs) = [false; false; false] /\
    lax true true toy (w_bytes w) = true /\ lax true false toy (w_bytes w) = false /\ lax false true toy (w_bytes w) = false) by (vm_compute; repeat split; reflexivity).
  destruct (visited_archive toy (buffered toy) halting polled2) as [[outs r] w]. cbv zeta in *. destruct H as (H1 & H2 & H3 & H4 & H5 & H6 & H7 & H8).
  split; [rewrite <- (Forall_map fst op_good), H1; repeat constructor; cbn; discriminate|]. split.
  { apply Forall_forall. intros [v [r0 ys]] I. rewrite forallb_forall in H2. specialize (H2 _ I). cbn [snd] in H2. destruct v as [o|pre e l k]; [exact Logic.I|].
    destruct r0; [|exact Logic.I]. right. right. rewrite forallb_forall in H2. apply Forall_forall. intros y Y. specialize (H2 y Y). unfold poll_failed.
    now destruct (snd y). }
  split; [rewrite <- (Forall_map fst (fun o => dropped o = false)), H1; repeat constructor|]. split; [exact H3|].
  split; [apply Forall_forall; rewrite forallb_forall in H4; exact H4|]. split; [exact H5|].
  split; [pose proof (clear_end_ok toy _ _ _ _ H6) as (_ & _ & _ & X & _); now apply end_clear_others|].
  split.
  { apply Forall_forall. intros [n o] I. apply (in_map fst) in I. rewrite H7 in I. cbn in I. destruct I as [<-|[<-|[<-|[]]]]; apply unexchanged_free. }
  split; [unfold len; rewrite <- (map_length fst), H7; reflexivity|exact H8].
Qed.
(** the awaited session of C101, without its last stream, which is dropped *)
Example C103_case2 : let l := firstn 5 errands in
  Forall (patient 20 halting) l /\ Forall handy l /\ Forall (fun o => dropped o = false) l /\ Forall ordinary_op l /\ ordinary l /\ filter writes_entry l <> [] /\
  Forall (told_right toy) (map (fun o => (false, o)) (filter writes_entry l)) /\
  let '(outs, r, w) := awaited_archive toy (buffered toy) 20 halting l in len (w_bytes w) = 552 /\ lax true true toy (w_bytes w) = true /\
  match sights toy (w_bytes w) with Some vs => map v_content vs = [[x07; x07]; [x01; x02]; []; [x09; x08; x07]] | None => False end.
Proof.
  cbv zeta. split; [repeat (constructor; try exact I; try (cbn; lia))|].
  split; [pose proof errands_handy as H; exact (proj1 (proj1 (Forall_app _ (firstn 5 errands) (skipn 5 errands)) H))|].
  split; [repeat constructor|]. split; [pose proof errands_quiet as H; exact (proj1 (proj1 (Forall_app _ (firstn 5 errands) (skipn 5 errands)) H))|].
  split; [|split; [discriminate|split; [repeat constructor|vm_compute; repeat split; reflexivity]]].
  destruct errands_few as [_ (F1 & F2 & F3)]. unfold ordinary. repeat split; try exact F2; try exact F3.
Qed.
(** data that goes in as it is, on a sink that waits: the calls tell every byte *)
Example C103_case3 : let '(_, r, w) := awaited_archive toy (buffered toy) 20 halting [OpStream false entry1 [SWriteAll [x68; x69]; SFlush; SWriteAll [x69; x21]] true; OpComment [x68]] in
  r = Ok tt /\ w_bytes w = session_image [OpStream false entry1 [SWriteAll [x68; x69]; SFlush; SWriteAll [x69; x21]] true; OpComment [x68]] /\ len (w_bytes w) = 258.
Proof. vm_compute. repeat split; reflexivity. Qed.
