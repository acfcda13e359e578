(** Property theorems: awaited calls on sinks that fail or keep callers waiting. *)
From Verif Require Import Base BaseFacts SpecFormat SpecCrc SpecUtf8 SpecArchive SpecRead SpecWrite SpecPolls SpecEncoder SpecOrdinary SpecLively SpecBlame
  ZString ZDate Headers ExtraField Entry IO IOFacts Reader EntryReader Writer StreamPolls EncoderPolls AwaitedWrites
  Samples WriteSamples EncoderSamples LivelySamples BlameProofs Properties_Ordinary.

(** * C104. A call that fails met a fault of the sink, a call that is given up was kept waiting by it; nothing else goes wrong. *)
Theorem C104_call cd (E : engine cd) view k o w : enc_takes cd -> engine_ok cd E view -> engine_lively cd E view -> handy o -> w_force_no w = false ->
  let '(x, w') := awaited_op cd E k o w in exists used, k_sched (w_sink w) = used ++ k_sched (w_sink w') /\ ended_by k used o x.
Proof. exact (awaited_blame cd E view k o w). Qed.
Print Assumptions C104_call.
Theorem C104_session cd (E : engine cd) view k sched l : enc_takes cd -> engine_ok cd E view -> engine_lively cd E view -> Forall handy l ->
  let '(outs, r, w) := awaited_archive cd E k sched l in
  map fst outs = l /\ Forall (fun x => ended_by k sched (fst x) (snd x)) outs /\
  (r = Ok tt \/ exists io, r = Err (UpstreamReadError io) /\ ~ obliging sched).
Proof. exact (session_blame cd E view k sched l). Qed.
Print Assumptions C104_session.
(** Whatever went wrong in between, what did succeed reads back from an archive that was closed: a call that failed left no entry, one
    that was given up is a stream that was dropped. The encoder need not even be lively, and no poll that failed is made again. *)
Theorem C104_back cd (E : engine cd) view cfg k sched s l : codec_ok cd -> engine_ok cd E view -> Forall op_good l ->
  let '(outs, r, w) := awaited_archive cd E k sched l in
  let xs := map settled outs in
  let d := w_bytes w in
  r = Ok tt -> unambiguous cd cfg (map fst xs) xs (w_zip64 w) d -> s_data s = d -> nofail (s_sched s) ->
  exists f, fst (file cfg s) = Ok f /\ mem_new cfg d = Ok {| m_data := d; m_file := f |} /\ f_zip64 f = w_zip64 w /\
    comment_reads_as (last_comment (map fst xs)) (f_comment f) /\
    Forall2 (fun x st => exists it, leaves cd (fst x) (snd x) it /\ as_written d it st /\ texts_kept it st) (succeeded false xs) (f_entries f) /\
    (forall i no64 o data, nth_error (succeeded false xs) (N.to_nat i) = Some (no64, o) -> holds cd o data ->
       (forall it, leaves cd no64 o it -> straight it) ->
       read_entry cd f i s = Ok data /\ mem_read_entry cd {| m_data := d; m_file := f |} i = Ok data).
Proof. exact (awaited_back cd E view cfg k sched s l). Qed.
Print Assumptions C104_back.
(** Polled by hand: once [poll_close] of a compressed stream says it is done, the sink has the compressed data to their end. *)
Theorem C104_closed cd (E : engine cd) view pre e w sw w1 st l : codec_ok cd -> engine_ok cd E view ->
  stream_open cd pre e w = (Ok sw, w1) -> sw_enc sw = Some st ->
  let '(xs, sw', g, w2) := coded_polls E (l ++ [PollClose]) sw (eg_new E st) w1 in
  Forall (fun y => ~ poll_failed y) xs -> (exists n, last xs (PollClose, WPend) = (PollClose, WDone n)) ->
  exists z, w_bytes w2 = w_bytes w1 ++ z /\ forall rest, dec cd (en_compression e) (z ++ rest) = (taken xs, Some (len z)).
Proof. exact (polled_out cd E view pre e w sw w1 st l). Qed.
Print Assumptions C104_closed.
(** An encoder that does stop without reason is found out: one that takes nothing of what it is offered fails the stream. *)
Theorem C104_zero cd (E : engine cd) k pre e b body closed w sw w1 st g w2 : stream_open cd pre e w = (Ok sw, w1) -> sw_enc sw = Some st -> b <> [] ->
  eg_poll E (EWrite b) (eg_new E st) w1 = (WDone 0, g, w2) ->
  awaited_op cd E (S k) (OpStream pre e (SWriteAll b :: body) closed) w = (Some (Err (UpstreamReadError WriteZero)), w2).
Proof. exact (takes_nothing cd E k pre e b body closed w sw w1 st g w2). Qed.
Print Assumptions C104_zero.
Definition idle : engine toy := {| eg_state := est toy; eg_new := fun g => g; eg_poll := fun _ g w => (WDone 0, g, w) |}.
Example C104_zero_case : (exists sw w1 st, stream_open toy false entry3 (zw_new []) = (Ok sw, w1) /\ sw_enc sw = Some st /\ eg_poll idle (EWrite [x01]) (eg_new idle st) w1 = (WDone 0, st, w1)) /\
  fst (awaited_op toy idle 1 (OpStream false entry3 [SWriteAll [x01]] true) (zw_new [])) = Some (Err (UpstreamReadError WriteZero)).
Proof. split; [eexists _, _, _; split; [vm_compute; reflexivity|split; reflexivity]|vm_compute; reflexivity]. Qed.

(** a stream meets a fault in the middle of its data, the next one waits longer than its caller *)
Definition rough : list wop :=
  [OpWhole entry3 [x09]; OpStream false entry3 [SWriteAll [x01; x02]; SFlush; SWriteAll [x03]] true; OpStream false entry3 [SWriteAll [x04]; SFlush] true;
   OpStream false entry3 [SWriteAll [x05; x06]] true; OpComment [x68]].
Definition shaky : list wevent := repeat (WAccept 99) 10 ++ [WFail 7] ++ repeat (WAccept 99) 5 ++ repeat WPending 4.
Lemma rough_good : Forall op_good rough.
Proof. repeat constructor; cbn; discriminate. Qed.
Lemma rough_handy : Forall handy rough.
Proof.
  pose proof rough_good as G. rewrite Forall_forall in G. apply Forall_forall. intros o I. split; [|split; [now apply G|]]; cbn in I;
    repeat (destruct I as [<-|I]; [first [discriminate | split; [first [discriminate | exact (fun x => x)] | first [exact roomy3 | exact Logic.I]]]|]); elim I.
Qed.
Example C104_case : codec_ok toy /\ engine_ok toy (buffered toy) (fun g => g) /\ engine_lively toy (buffered toy) (fun g => g) /\ Forall handy rough /\ Forall op_good rough /\
  let '(outs, r, w) := awaited_archive toy (buffered toy) 3 shaky rough in
  let xs := map settled outs in
  let d := w_bytes w in
  r = Ok tt /\ unambiguous toy cfg0 (map fst xs) xs (w_zip64 w) d /\
  map snd outs = [Some (Ok tt); Some (Err (UpstreamReadError (IoOther 7))); None; Some (Ok tt); Some (Ok tt)] /\ len d = 487 /\ k_sched (w_sink w) = [] /\
  exists f, mem_new cfg0 d = Ok {| m_data := d; m_file := f |} /\ len (f_entries f) = 2 /\
    mem_read_entry toy {| m_data := d; m_file := f |} 0 = Ok [x09] /\ mem_read_entry toy {| m_data := d; m_file := f |} 1 = Ok [x05; x06].
Proof.
  split; [exact toy_ok|]. split; [exact (buffered_ok toy (proj1 toy_ok))|]. split; [exact (buffered_lively toy (proj1 toy_ok))|]. split; [exact rough_handy|]. split; [exact rough_good|].
  assert (H : let '(outs, r, w) := awaited_archive toy (buffered toy) 3 shaky rough in
    let xs := map settled outs in
    r = Ok tt /\ clear_end xs (w_zip64 w) (last_comment (map fst xs)) (w_bytes w) = true /\
    map snd outs = [Some (Ok tt); Some (Err (UpstreamReadError (IoOther 7))); None; Some (Ok tt); Some (Ok tt)] /\ len (w_bytes w) = 487 /\ k_sched (w_sink w) = [] /\
    match mem_new cfg0 (w_bytes w) with
    | Ok m => m_data m = w_bytes w /\ len (f_entries (m_file m)) = 2 /\ mem_read_entry toy m 0 = Ok [x09] /\ mem_read_entry toy m 1 = Ok [x05; x06]
    | _ => False
    end) by (vm_compute; repeat split; reflexivity).
  destruct (awaited_archive toy (buffered toy) 3 shaky rough) as [[outs r] w]. cbv zeta in *. destruct H as (H1 & H2 & H3 & H4 & H5 & H6).
  split; [exact H1|]. split; [exact (clear_end_ok toy _ _ _ _ H2)|]. split; [exact H3|]. split; [exact H4|]. split; [exact H5|].
  destruct (mem_new cfg0 (w_bytes w)) as [[d f]|e|p]; [|destruct H6|destruct H6]. cbn [m_data m_file] in H6. destruct H6 as (-> & H6). exists f. split; [reflexivity|exact H6].
Qed.
(** a stream that waits for the sink between its polls *)
Example C104_case2 :
  let '(r, w1) := stream_open toy false entry3 (zw_new (repeat (WAccept 99) 4 ++ [WAccept 1; WPending; WAccept 1; WPending; WPending; WAccept 9; WPending; WPending; WAccept 9])) in
  match r with
  | Ok sw => match sw_enc sw with
    | Some st =>
      let '(xs, sw', g, w2) := coded_polls (buffered toy) ([PollWrite [x01; x02; x03]; PollFlush; PollFlush; PollWrite [x04]; PollClose] ++ [PollClose]) sw (eg_new (buffered toy) st) w1 in
      map snd xs = [WDone 3; WPend; WPend; WDone 1; WPend; WDone 0] /\ last xs (PollClose, WPend) = (PollClose, WDone 0) /\
      taken xs = [x01; x02; x03; x04] /\ len (w_bytes w2) = len (w_bytes w1) + 9
    | None => False
    end
  | _ => False
  end.
Proof. vm_compute. repeat split; reflexivity. Qed.
