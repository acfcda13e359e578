(** Awaited calls on any sink: what they leave, and why they end. *)
From Verif Require Import Base BaseFacts Crc32 CrcFacts SpecFormat SpecCrc SpecArchive ZString ZDate Headers HeadersFacts
  ExtraField ExtraFieldFacts Entry IO IOFacts Reader EntryReader Writer WriterFacts WholeFacts StreamFacts SpecRead SpecWrite OpenFacts RecordFacts WriteProofs
  HistFacts CloseFacts ChainFacts StreamPolls SpecPolls PollProofs EncoderPolls SpecEncoder EncoderProofs AwaitedWrites SpecLively
  RoundTrip TextFacts OutcomeFacts RepeatFacts StreamOutcome SpecOutcome SpecOrdinary OrdinaryProofs AllWork LivelyProofs SpecBlame.
Arguments N.add : simpl never.
Arguments N.sub : simpl never.

(** ** What they leave *)
Section Engine.
Context {cd : codec} (E : engine cd) (view : eg_state E -> est cd * bytes * bool) (OK : engine_ok cd E view).

(** the polls that were made, if they got to the end; the sink got something else *)
Definition went (sw : stream_writer cd) (g : eg_state E) (w : world) (b : bytes) (x : option (res (stream_writer cd * eg_state E)) * world) : Prop :=
  match fst x with
  | Some (Ok (sw', g')) => exists xs, coded_polls E (map fst xs) sw g w = (xs, sw', g', snd x) /\ taken xs = b /\ Forall (fun y => ~ poll_failed y) xs
  | Some (Err e) => (exists io, e = UpstreamReadError io) /\ exists z u f, moved w (snd x) z u f
  | Some (Panic _) => False
  | None => exists z u f, moved w (snd x) z u f
  end.
Lemma poll_moves c sw g w : let '(p, sw1, g1, w1) := coded_poll E c sw g w in exists z u f, moved w w1 z u f.
Proof.
  pose proof (coded_moves E view OK [c] sw g w) as H. cbn [coded_polls] in H. now destruct (coded_poll E c sw g w) as [[[p sw1] g1] w1].
Qed.
Lemma went_first sw g w p c b b' x : ~ poll_failed (c, p) -> reported (c, p) = b ->
  forall sw1 g1 w1, coded_poll E c sw g w = (p, sw1, g1, w1) -> went sw1 g1 w1 b' x -> went sw g w (b ++ b') x.
Proof.
  intros P R sw1 g1 w1 C W. pose proof (poll_moves c sw g w) as M. rewrite C in M. destruct M as (z & u & f & M). unfold went in *.
  destruct (fst x) as [[[sw' g']|e|q]|].
  - destruct W as (xs & X2 & X3 & X4). exists ((c, p) :: xs). split; [cbn [map fst coded_polls]; now rewrite C, X2|].
    split; [unfold taken in *; cbn [map concat]; now rewrite R, X3|now constructor].
  - destruct W as (I & z2 & u2 & f2 & M2). split; [exact I|]. do 3 eexists. exact (moved_trans _ _ _ _ _ _ _ _ _ M M2).
  - exact W.
  - destruct W as (z2 & u2 & f2 & M2). do 3 eexists. exact (moved_trans _ _ _ _ _ _ _ _ _ M M2).
Qed.
Lemma went_end sw g w : went sw g w [] (Some (Ok (sw, g)), w).
Proof. exists []. repeat split. constructor. Qed.
Lemma write_went k : forall b sw g w, went sw g w b (await_write E k b sw g w).
Proof.
  induction k as [|k IH]; intros [|x b] sw g w; try (cbn [await_write]; apply went_end).
  { cbn [await_write]. exists [], [], 0. apply moved_refl. }
  cbn [await_write]. remember (x :: b) as B eqn:EB. clear EB. pose proof (proj2 OK (EWrite B) g w) as H2. pose proof (poll_moves (PollWrite B) sw g w) as PM.
  destruct (coded_poll E (PollWrite B) sw g w) as [[[p sw1] g1] w1] eqn:C. pose proof C as C0. cbn [coded_poll] in C. unfold coded_poll_write in C.
  destruct (eg_poll E (EWrite B) g w) as [[q gq] wq]. destruct q as [|n|e]; injection C as <- <- <- <-.
  - exact (went_first sw g w WPend (PollWrite B) [] B _ (fun X => X) eq_refl _ _ _ C0 (IH B sw gq wq)).
  - assert (NB : n <= len B).
    { destruct (view g) as [[st kept] fin], (view gq) as [[st' kept'] fin']. now destruct H2 as (fd & o & la & se & _ & _ & _ & _ & _ & ? & _). }
    destruct (N.eqb_spec n 0) as [Z|Z]; [split; [now exists WriteZero|exact PM]|].
    pose proof (went_first sw g w (WDone n) (PollWrite B) (take n B) (drop n B) _ (fun X => X) eq_refl _ _ _ C0 (IH (drop n B) _ gq wq)) as W.
    rewrite take_drop in W. exact W.
  - split; [now exists e|exact PM].
Qed.
Lemma flush_went k : forall sw g w, went sw g w [] (await_flush E k sw g w).
Proof.
  induction k as [|k IH]; intros sw g w; cbn [await_flush]; [exists [], [], 0; apply moved_refl|].
  pose proof (poll_moves PollFlush sw g w) as PM. destruct (coded_poll E PollFlush sw g w) as [[[p sw1] g1] w1] eqn:C. destruct p as [|n|e].
  - exact (went_first sw g w WPend PollFlush [] [] _ (fun X => X) eq_refl _ _ _ C (IH sw1 g1 w1)).
  - exact (went_first sw g w (WDone n) PollFlush [] [] _ (fun X => X) eq_refl _ _ _ C (went_end sw1 g1 w1)).
  - split; [now exists e|exact PM].
Qed.
Lemma body_went k l : forall sw g w, went sw g w (fed_bytes l) (await_body E k l sw g w).
Proof.
  induction l as [|o l IH]; intros sw g w; cbn [await_body]; [apply went_end|].
  assert (H : went sw g w (match o with SWriteAll b => b | SFlush => [] end)
    (match o with SWriteAll b => await_write E k b sw g w | SFlush => await_flush E k sw g w end)).
  { destruct o as [b|]; [apply write_went|apply flush_went]. }
  destruct (match o with SWriteAll b => await_write E k b sw g w | SFlush => await_flush E k sw g w end) as [[[[sw1 g1]|e|q]|] w1]; unfold went in H at 1; cbn [fst snd] in H;
    [|exact H|contradiction|exact H].
  destruct H as (xs & H2 & H3 & H4). specialize (IH sw1 g1 w1). unfold went in *.
  pose proof (coded_moves E view OK (map fst xs) sw g w) as CM. rewrite H2 in CM. destruct CM as (z & u & f & M).
  destruct (await_body E k l sw1 g1 w1) as [[[[sw2 g2]|e|q]|] w2]; cbn [fst snd] in *.
  - destruct IH as (ys & I2 & I3 & I4). exists (xs ++ ys). split; [rewrite map_app, polls_app, H2, I2; reflexivity|].
    split; [rewrite taken_app, H3, I3; reflexivity|now apply Forall_app].
  - destruct IH as (I & z2 & u2 & f2 & M2). split; [exact I|]. do 3 eexists. exact (moved_trans _ _ _ _ _ _ _ _ _ M M2).
  - exact IH.
  - destruct IH as (z2 & u2 & f2 & M2). do 3 eexists. exact (moved_trans _ _ _ _ _ _ _ _ _ M M2).
Qed.
End Engine.

Lemma awaited_linked cd (E : engine cd) view k o w : enc_takes cd -> engine_ok cd E view -> op_good o ->
  let '(x, w') := awaited_op cd E k o w in linked cd w (fst (settled (o, x))) (snd (settled (o, x))) w'.
Proof.
  intros T OK G.
  assert (OTHERS : let '(x, w') := (let '(r, w') := run_op cd o w in (Some r, w')) in linked cd w (fst (settled (o, x))) (snd (settled (o, x))) w').
  { pose proof (call_linked cd o w T G) as L. destruct (run_op cd o w) as [r w']. exact L. }
  destruct o as [| |c|e d|e d|pre e body closed]; try exact OTHERS. unfold awaited_op.
  destruct (stream_open cd pre e w) as [[sw|x|p] w1] eqn:OP; try exact OTHERS. destruct (sw_enc sw) as [st|] eqn:EN; [|exact OTHERS]. clear OTHERS.
  pose proof (mild_open cd pre e w) as (MO & CO). rewrite OP in MO, CO. cbn [snd] in MO, CO.
  destruct (opened_enc _ _ _ _ _ _ _ OP EN) as (-> & NS & ND & ->). destruct G as [GF GS]. set (st0 := enc_init cd (en_compression e) LDefault) in *.
  pose proof (body_went E view OK k body sw (eg_new E st0) w1) as B. unfold went in B.
  assert (LEFT : forall z u f w2 c r, moved w1 w2 z u f -> (c = true -> worked r = false) -> too_many r = false -> linked cd w (OpStream false e body c) r w2).
  { intros z u f w2 c r M WK TM. apply linked_of; [exact (mild_trans _ _ _ MO (mild_moved _ _ _ _ _ M))|]. intros _ _.
    apply step_none; [rewrite (moved_cds _ _ _ _ _ M); exact CO| |exact TM]. destruct c; [intros _; now apply WK|discriminate]. }
  destruct (await_body E k body sw (eg_new E st0) w1) as [[[[sw' g]|x|p]|] w2]; cbn [fst snd] in B.
  - destruct B as (xs & B2 & B3 & B4).
    pose proof (fun k => visit_linked cd E view (Polls false e (map fst xs) k) w T OK) as VL. cbn [run_visit] in VL. rewrite OP, EN, B2 in VL.
    assert (G1 : forall c, op_good (OpStream false e [SWriteAll (taken xs)] c)).
    { intro c. split; [exact GF|]. unfold op_sized in *. rewrite B3. cbn [fed_bytes map concat]. unfold fed_bytes at 1. cbn [map concat]. now rewrite app_nil_r. }
    destruct closed.
    + specialize (VL k). destruct (coded_close E k sw' g w2) as [[r|] w3]; cbn [settled given_up counts_as fst snd] in *; apply linked_body; rewrite <- B3; apply VL; try apply G1; [right; right; exact B4|exact I].
    + specialize (VL O). cbn [coded_close await_close] in VL. cbn [settled given_up counts_as fst snd] in *. unfold coded_close in VL. cbn [await_close] in VL.
      apply linked_body. rewrite <- B3. apply VL; [apply G1|exact I].
  - destruct B as ((io & ->) & z & u & f & M). cbn [settled fst snd]. now apply (LEFT _ _ _ _ _ _ M).
  - contradiction.
  - destruct B as (z & u & f & M). cbn [settled given_up fst snd]. apply (LEFT _ _ _ _ _ _ M); [discriminate|reflexivity].
Qed.
Lemma settled_good o x : op_good o -> op_good (fst (settled (o, x))).
Proof. destruct x; [auto|]. now destruct o. Qed.
Lemma settled_chain cd (E : engine cd) view k : enc_takes cd -> engine_ok cd E view -> forall l w, Forall op_good l ->
  let '(outs, w') := awaited_ops cd E k l w in map fst outs = l /\ ChainFacts.chain cd w (map settled outs) w'.
Proof.
  intros T OK. induction l as [|o l IH]; intros w G; cbn [awaited_ops]; [split; [reflexivity|constructor]|]. apply Forall_cons_iff in G as [G1 G2].
  pose proof (awaited_linked cd E view k o w T OK G1) as H. destruct (awaited_op cd E k o w) as [x w1]. specialize (IH w1 G2).
  destruct (awaited_ops cd E k l w1) as [outs w2]. destruct IH as [I1 I2]. cbn [map fst]. split; [now f_equal|]. destruct (settled (o, x)) as [o' r]. econstructor; [exact H|exact I2].
Qed.
Lemma awaited_back cd (E : engine cd) view cfg k sched s l : codec_ok cd -> engine_ok cd E view -> Forall op_good l ->
  let '(outs, r, w) := awaited_archive cd E k sched l in
  let xs := map settled outs in
  let d := w_bytes w in
  r = Ok tt -> unambiguous cd cfg (map fst xs) xs (w_zip64 w) d -> s_data s = d -> nofail (s_sched s) ->
  exists f, fst (file cfg s) = Ok f /\ mem_new cfg d = Ok {| m_data := d; m_file := f |} /\ f_zip64 f = w_zip64 w /\
    comment_reads_as (last_comment (map fst xs)) (f_comment f) /\
    Forall2 (fun x st => exists it, leaves cd (fst x) (snd x) it /\ as_written d it st /\ texts_kept it st) (succeeded false xs) (f_entries f) /\
    (forall i no64 o data, nth_error (succeeded false xs) (N.to_nat i) = Some (no64, o) -> holds cd o data ->
       (forall it, leaves cd no64 o it -> straight it) ->
       read_entry cd f i s = Ok data /\ mem_read_entry cd {| m_data := d; m_file := f |} i = Ok data).
Proof.
  intros K OK G. unfold awaited_archive. pose proof (settled_chain cd E view k (proj1 K) OK l (zw_new sched) G) as H.
  destruct (awaited_ops cd E k l (zw_new sched)) as [outs w0]. destruct (zw_close w0) as [r w] eqn:CL. cbv zeta. destruct H as [_ CH]. intros -> UN SD NF.
  destruct (chain_shape _ _ _ _ _ CH CL (proj1 UN)) as (its & ms & SH). exact (shape_back cd cfg s _ _ _ _ _ _ _ K SH UN SD NF).
Qed.

(** ** Why they end *)
Lemma faulty_not u io : faulty u io -> ~ obliging u.
Proof. intros F O. apply obliging_steady in O. exact (steady_faulty _ _ O F). Qed.
Lemma not_obliging_l a b : ~ obliging a -> ~ obliging (a ++ b).
Proof. intros N H. apply obliging_app in H. tauto. Qed.
Lemma not_obliging_r a b : ~ obliging b -> ~ obliging (a ++ b).
Proof. intros N H. apply obliging_app in H. tauto. Qed.
Section Blame.
Context {cd : codec} (E : engine cd) (view : eg_state E -> est cd * bytes * bool) (OK : engine_ok cd E view) (LV : engine_lively cd E view).

Definition blamed (w : world) (few : nat -> Prop) (x : option (res (stream_writer cd * eg_state E)) * world) : Prop :=
  exists used, w_sched w = used ++ w_sched (snd x) /\
  match fst x with
  | Some (Ok (_, g')) => snd (view g') = false
  | Some _ => ~ obliging used
  | None => few (waits used)
  end.
Lemma blamed_later w w1 u (few few' : nat -> Prop) x : w_sched w = u ++ w_sched w1 -> (forall n, few n -> few' (waits u + n)%nat) -> blamed w1 few x -> blamed w few' x.
Proof.
  intros U F (u2 & U2 & X). exists (u ++ u2). split; [now rewrite U, U2, app_assoc|]. destruct (fst x) as [[[sw g]|e|p]|].
  - exact X.
  - now apply not_obliging_r.
  - now apply not_obliging_r.
  - rewrite waits_app. now apply F.
Qed.
Lemma write_blamed k : forall b sw g w, snd (view g) = false -> blamed w (fun n => (k < n + length b)%nat) (await_write E k b sw g w).
Proof.
  induction k as [|k IH]; intros [|x b] sw g w F; try (cbn [await_write]; exists []; split; [reflexivity|exact F]).
  { cbn [await_write]. exists []. split; [reflexivity|]. cbn. lia. }
  cbn [await_write]. remember (x :: b) as B eqn:EB. assert (NN : B <> []) by (rewrite EB; discriminate). clear EB. pose proof (LV (EWrite B) g w) as H. pose proof (proj2 OK (EWrite B) g w) as H2.
  cbn [coded_poll]. unfold coded_poll_write.
  destruct (eg_poll E (EWrite B) g w) as [[q gq] wq]. destruct H as (FK & u & U & H). fold (w_sched w) in U. fold (w_sched wq) in U. specialize (FK ltac:(discriminate)). rewrite F in FK.
  destruct q as [|n|e].
  - apply in_split in H as (u1 & u2 & ->). refine (blamed_later _ _ _ _ _ _ U _ (IH B sw gq wq FK)). intros m M. rewrite waits_app, waits_cons. lia.
  - assert (NB : n <= len B).
    { destruct (view g) as [[st kept] fin], (view gq) as [[st' kept'] fin']. now destruct H2 as (fd & o & la & se & _ & _ & _ & _ & _ & ? & _). }
    specialize (H NN). destruct (N.eqb_spec n 0) as [Z|Z]; [lia|].
    refine (blamed_later _ _ _ _ _ _ U _ (IH (drop n B) _ gq wq FK)). intros m M. pose proof (len_drop n B) as LD. unfold len in LD, NB. lia.
  - exists u. split; [exact U|]. cbn [fst]. destruct H as [H|[H _]]; [exact H|congruence].
Qed.
Lemma flush_blamed k : forall sw g w, snd (view g) = false -> blamed w (fun n => (k <= n)%nat) (await_flush E k sw g w).
Proof.
  induction k as [|k IH]; intros sw g w F; cbn [await_flush]; [exists []; split; [reflexivity|apply Nat.le_0_l]|].
  pose proof (LV EFlush g w) as H. cbn [coded_poll]. destruct (eg_poll E EFlush g w) as [[q gq] wq]. destruct H as (FK & u & U & H). fold (w_sched w) in U. fold (w_sched wq) in U.
  specialize (FK ltac:(discriminate)). rewrite F in FK. destruct q as [|n|e].
  - apply in_split in H as (u1 & u2 & ->). refine (blamed_later _ _ _ _ _ _ U _ (IH sw gq wq FK)). intros m M. rewrite waits_app, waits_cons. lia.
  - exists u. split; [exact U|exact FK].
  - exists u. split; [exact U|]. cbn [fst]. destruct H as [H|[H _]]; [exact H|congruence].
Qed.
Definition too_few (k : nat) (l : list stream_op) (n : nat) : Prop :=
  ~ (Forall (fun x => match x with SWriteAll b => (n + length b <= k)%nat | SFlush => True end) l /\ (n < k)%nat).
Lemma body_blamed k l : forall sw g w, snd (view g) = false -> blamed w (too_few k l) (await_body E k l sw g w).
Proof.
  induction l as [|o l IH]; intros sw g w F; cbn [await_body]; [exists []; split; [reflexivity|exact F]|].
  assert (H : blamed w (too_few k (o :: l)) (match o with SWriteAll b => await_write E k b sw g w | SFlush => await_flush E k sw g w end)).
  { destruct o as [b|].
    - refine (blamed_later w w [] _ _ _ eq_refl _ (write_blamed k b sw g w F)). intros n N (P & L). apply Forall_cons_iff in P as [P _]. cbn [waits filter length] in *. lia.
    - refine (blamed_later w w [] _ _ _ eq_refl _ (flush_blamed k sw g w F)). intros n N (_ & L). cbn [waits filter length] in *. lia. }
  destruct (match o with SWriteAll b => await_write E k b sw g w | SFlush => await_flush E k sw g w end) as [[[[sw1 g1]|e|q]|] w1]; try exact H.
  destruct H as (u & U & V). cbn [fst snd] in *. refine (blamed_later _ _ _ _ _ _ U _ (IH sw1 g1 w1 V)).
  intros n N (P & L). apply Forall_cons_iff in P as [_ P]. apply N. split; [|lia]. eapply Forall_impl; [|exact P]. intros [b|]; cbv beta iota; lia.
Qed.
Lemma close_blamed k : forall g w, let '(x, w') := await_close E k g w in
  exists used, w_sched w = used ++ w_sched w' /\ match x with Some (Ok _) => True | Some _ => ~ obliging used | None => (k <= waits used)%nat end.
Proof.
  induction k as [|k IH]; intros g w; cbn [await_close]; [exists []; split; [reflexivity|apply Nat.le_0_l]|].
  pose proof (LV EClose g w) as H. destruct (eg_poll E EClose g w) as [[q gq] wq]. destruct H as (_ & u & U & H). fold (w_sched w) in U. fold (w_sched wq) in U. destruct q as [|n|e].
  - apply in_split in H as (u1 & u2 & ->). specialize (IH gq wq). destruct (await_close E k gq wq) as [x w2]. destruct IH as (u3 & U3 & X). exists ((u1 ++ WPending :: u2) ++ u3).
    split; [now rewrite U, U3, app_assoc|]. destruct x as [[[]|e|p]|]; [exact I|now apply not_obliging_r|now apply not_obliging_r|]. rewrite !waits_app, waits_cons. lia.
  - exists u. split; [exact U|exact I].
  - exists u. split; [exact U|]. destruct H as [H|[_ H]]; [exact H|now elim H].
Qed.
End Blame.

Lemma awaited_blame cd (E : engine cd) view k o w : enc_takes cd -> engine_ok cd E view -> engine_lively cd E view -> handy o -> w_force_no w = false ->
  let '(x, w') := awaited_op cd E k o w in exists used, w_sched w = used ++ w_sched w' /\ ended_by k used o x.
Proof.
  intros T OK LV H FN. pose proof H as (_ & G & _ & RM).
  assert (OTHERS : let '(x, w') := (let '(r, w') := run_op cd o w in (Some r, w')) in exists used, w_sched w = used ++ w_sched w' /\ ended_by k used o x).
  { pose proof (wsim_run_op cd o w) as SIM. unfold sim_at in SIM. pose proof (handy_works cd o (calmw w) T H FN eq_refl) as HW.
    destruct (run_op cd o w) as [r w'], (run_op cd o (calmw w)) as [r0 w0]. cbn [fst] in HW. destruct SIM as (_ & _ & u & U & SIM). exists u. split; [exact U|].
    destruct SIM as [(-> & _)|(io & -> & F & _)]; [subst r0; exact I|]. split; [now exists io|exact (faulty_not _ _ F)]. }
  destruct o as [| |c|e d|e d|pre e body closed]; try exact OTHERS. unfold awaited_op.
  destruct (stream_open cd pre e w) as [[sw|x|p] w1] eqn:OP; try exact OTHERS. destruct (sw_enc sw) as [st|] eqn:EN; [|exact OTHERS]. clear OTHERS.
  pose proof (mild_open cd pre e w) as (MO & CO). rewrite OP in MO. cbn [snd] in MO. destruct MO as [(_ & _ & _ & (u0 & U0)) _ _].
  destruct (opened_enc _ _ _ _ _ _ _ OP EN) as (-> & NS & ND & ->). destruct G as [GF GS].
  set (st0 := enc_init cd (en_compression e) LDefault) in *.
  assert (NV : snd (view (eg_new E st0)) = false) by now rewrite (proj1 OK).
  pose proof (body_blamed E view OK LV k body sw (eg_new E st0) w1 NV) as B. pose proof (body_went E view OK k body sw (eg_new E st0) w1) as W. unfold went in W.
  destruct (await_body E k body sw (eg_new E st0) w1) as [[[[sw' g]|x|p]|] w2]; destruct B as (u & U & B); cbn [fst snd] in *.
  - destruct closed; [|exists (u0 ++ u); split; [now rewrite U0, U, app_assoc|exact I]].
    destruct W as (xs & W2 & W3 & W4). unfold coded_close. pose proof (close_blamed E view LV k g w2) as CB.
    pose proof (await_moves E view OK k g w2) as AM. pose proof (await_ends E k g w2) as AE.
    pose proof (coded_moves E view OK (map fst xs) sw (eg_new E st0) w1) as CM. rewrite W2 in CM.
    pose proof (coded_through E view OK st0 w1 (map fst xs) sw (eg_new E st0) w1 []) as CT. rewrite (proj1 OK), W2 in CT.
    destruct CT as (_ & ES); [|exact W4|]. { exists [], [], [], 0. split; [constructor|]. split; [reflexivity|apply moved_refl]. }
    destruct (await_close E k g w2) as [[[[]|x|p]|] w3]; destruct CB as (u3 & U3 & CB).
    + destruct AM as (b3 & v3 & f3 & M3), CM as (b2 & v2 & f2 & M2). rewrite ES, unencoded_fed.
      pose proof (closing_ends false e w sw w1 (taken xs) _ _ _ w3 GF RM FN OP (moved_trans _ _ _ _ _ _ _ _ _ M2 M3)) as CE.
      pose proof (grows_stream_close (fed sw (taken xs) None) w3) as GR.
      destruct (stream_close (fed sw (taken xs) None) w3) as [r w4]. destruct CE as [->|(io & u4 & -> & U4 & F)].
      * cbn [snd] in GR. destruct GR as (_ & _ & _ & (u4 & U4)). exists (u0 ++ u ++ u3 ++ u4). split; [now rewrite U0, U, U3, U4, !app_assoc|exact I].
      * exists (u0 ++ u ++ u3 ++ u4). split; [now rewrite U0, U, U3, U4, !app_assoc|]. split; [now exists io|]. apply faulty_not in F. now repeat apply not_obliging_r.
    + exists (u0 ++ u ++ u3). split; [now rewrite U0, U, U3, !app_assoc|]. split; [exact AE|]. now repeat apply not_obliging_r.
    + contradiction.
    + exists (u0 ++ u ++ u3). split; [now rewrite U0, U, U3, !app_assoc|]. intros [_ L]. rewrite !waits_app in L. lia.
  - exists (u0 ++ u). split; [now rewrite U0, U, app_assoc|]. split; [apply W|now apply not_obliging_r].
  - contradiction.
  - exists (u0 ++ u). split; [now rewrite U0, U, app_assoc|]. intros [P L]. rewrite waits_app in *. apply B. split; [|lia].
    eapply Forall_impl; [|exact P]. intros [b|]; cbv beta iota; lia.
Qed.

Lemma patient_shorter k a b o : (waits a <= waits b)%nat -> patient k b o -> patient k a o.
Proof.
  intros L. destruct o as [| | | | |pre e body closed]; try exact (fun H => H). intros [A B]. split; [|lia].
  eapply Forall_impl; [|exact A]. intros [c|]; cbv beta iota; lia.
Qed.
Lemma ended_more k a u b o x : ended_by k u o x -> ended_by k (a ++ u ++ b) o x.
Proof.
  destruct x as [[[]|e|p]|]; cbn [ended_by]; try exact (fun H => H).
  - intros [I N]. split; [exact I|]. apply not_obliging_r. now apply not_obliging_l.
  - intros N P. apply N. eapply patient_shorter; [|exact P]. rewrite !waits_app. lia.
Qed.
Lemma all_blamed cd (E : engine cd) view k : enc_takes cd -> engine_ok cd E view -> engine_lively cd E view -> forall l, Forall handy l -> forall w a sched,
  w_force_no w = false -> sched = a ++ w_sched w ->
  let '(outs, w') := awaited_ops cd E k l w in Forall (fun x => ended_by k sched (fst x) (snd x)) outs.
Proof.
  intros T OK LV. induction 1 as [|o l H _ IH]; intros w a sched FN S; cbn [awaited_ops]; [constructor|].
  pose proof (awaited_blame cd E view k o w T OK LV H FN) as B. pose proof (awaited_linked cd E view k o w T OK (proj1 (proj2 H))) as L.
  destruct (awaited_op cd E k o w) as [x w1]. destruct B as (u & U & B). destruct L as [_ _ KF _ _ _ _].
  assert (FN1 : w_force_no w1 = false).
  { rewrite KF, FN. destruct x as [r|]; cbn [settled fst]; destruct H as (NF & _); destruct o; try reflexivity; now elim NF. }
  specialize (IH w1 (a ++ u) sched FN1 ltac:(now rewrite S, U, app_assoc)). destruct (awaited_ops cd E k l w1) as [outs w2]. constructor; [|exact IH].
  cbn [fst snd]. rewrite S, U. now apply ended_more.
Qed.
Lemma close_blame w : cds_short w -> w_force_no w = false ->
  let '(r, w') := zw_close w in r = Ok tt \/ exists io, r = Err (UpstreamReadError io) /\ ~ obliging (w_sched w).
Proof.
  intros S FN. pose proof (wsim_close w) as SIM. unfold sim_at in SIM. pose proof (close_works (calmw w) S FN ltac:(constructor)) as CW.
  destruct (zw_close w) as [r w'], (zw_close (calmw w)) as [r0 w0]. cbn [fst] in CW. destruct SIM as (_ & _ & u & U & [(-> & _)|(io & -> & F & _)]); [now left|].
  right. exists io. split; [reflexivity|]. rewrite U. apply not_obliging_l. exact (faulty_not _ _ F).
Qed.
Lemma session_blame cd (E : engine cd) view k sched l : enc_takes cd -> engine_ok cd E view -> engine_lively cd E view -> Forall handy l ->
  let '(outs, r, w) := awaited_archive cd E k sched l in
  map fst outs = l /\ Forall (fun x => ended_by k sched (fst x) (snd x)) outs /\
  (r = Ok tt \/ exists io, r = Err (UpstreamReadError io) /\ ~ obliging sched).
Proof.
  intros T OK LV H. unfold awaited_archive. pose proof (settled_chain cd E view k T OK l (zw_new sched) (handy_good _ H)) as CH.
  pose proof (all_blamed cd E view k T OK LV l H (zw_new sched) [] sched eq_refl eq_refl) as B.
  destruct (awaited_ops cd E k l (zw_new sched)) as [outs w0]. destruct CH as [ML CH].
  assert (FN : w_force_no w0 = false).
  { rewrite (chain_force _ _ _ _ CH). cbn [zw_new w_force_no]. rewrite <- ML in H. clear -H. induction outs as [|[o x] outs IH]; [reflexivity|]. cbn [map] in H.
    apply Forall_cons_iff in H as [(NF & _) H]. cbn [map fold_left fst] in *. replace (no_after false (fst (settled (o, x)))) with false; [now apply IH|].
    destruct x; destruct o; try reflexivity; now elim NF. }
  pose proof (close_blame w0 (chain_short _ _ _ _ CH ltac:(constructor)) FN) as CB. destruct (zw_close w0) as [r w]. split; [exact ML|]. split; [exact B|].
  destruct CB as [CB|(io & CB & N)]; [now left|right]. exists io. split; [exact CB|]. destruct (chain_evol _ _ _ _ CH) as (_ & _ & _ & (u & U)).
  change (w_sched (zw_new sched)) with sched in U. rewrite U. now apply not_obliging_r.
Qed.

(** ** Polled to its end *)
Lemma polled_out cd (E : engine cd) view pre e w sw w1 st l : codec_ok cd -> engine_ok cd E view ->
  stream_open cd pre e w = (Ok sw, w1) -> sw_enc sw = Some st ->
  let '(xs, sw', g, w2) := coded_polls E (l ++ [PollClose]) sw (eg_new E st) w1 in
  Forall (fun y => ~ poll_failed y) xs -> (exists n, last xs (PollClose, WPend) = (PollClose, WDone n)) ->
  exists z, w_bytes w2 = w_bytes w1 ++ z /\ forall rest, dec cd (en_compression e) (z ++ rest) = (taken xs, Some (len z)).
Proof.
  intros K OK OP EN. destruct (opened_enc _ _ _ _ _ _ _ OP EN) as (-> & NS & ND & ->). set (st0 := enc_init cd (en_compression e) LDefault) in *.
  pose proof (coded_through E view OK st0 w1 l sw (eg_new E st0) w1 []) as CT. rewrite (proj1 OK) in CT.
  rewrite polls_app. destruct (coded_polls E l sw (eg_new E st0) w1) as [[[xs sw1] g1] wa]. cbn [coded_polls coded_poll].
  pose proof (engine_through E view OK st0 w1 (taken xs) EClose g1 wa) as ET. destruct (eg_poll E EClose g1 wa) as [[p g2] wb].
  rewrite last_last. intros F (n & L). injection L as ->. apply Forall_app in F as [F _].
  destruct CT as (TH & _); [|exact F|]. { exists [], [], [], 0. split; [constructor|]. split; [reflexivity|apply moved_refl]. }
  cbn [app] in TH. destruct (ET TH) as (TH2 & st & V). rewrite V in TH2. destruct TH2 as (out & sent & u & f & RU & EQ & M). rewrite app_nil_r in EQ.
  exists sent. split; [exact (moved_bytes _ _ _ _ _ M)|]. intro rest. rewrite taken_app. unfold taken at 2. cbn [map concat reported]. rewrite app_nil_r, <- EQ.
  exact (proj2 K _ _ _ _ _ _ NS ND RU).
Qed.

Lemma takes_nothing cd (E : engine cd) k pre e b body closed w sw w1 st g w2 : stream_open cd pre e w = (Ok sw, w1) -> sw_enc sw = Some st -> b <> [] ->
  eg_poll E (EWrite b) (eg_new E st) w1 = (WDone 0, g, w2) ->
  awaited_op cd E (S k) (OpStream pre e (SWriteAll b :: body) closed) w = (Some (Err (UpstreamReadError WriteZero)), w2).
Proof.
  intros O C NE P. unfold awaited_op. rewrite O, C. cbn [await_body]. destruct b as [|x b]; [now elim NE|]. cbn [await_write coded_poll]. unfold coded_poll_write. now rewrite P.
Qed.
