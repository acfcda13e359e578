(** Awaiting gets done. *)
From Verif Require Import Base BaseFacts Crc32 CrcFacts SpecFormat SpecCrc SpecArchive ZString ZDate Headers HeadersFacts
  ExtraField ExtraFieldFacts Entry IO IOFacts Reader EntryReader Writer WriterFacts WholeFacts StreamFacts SpecRead SpecWrite OpenFacts RecordFacts WriteProofs
  HistFacts CloseFacts ChainFacts StreamPolls SpecPolls PollProofs EncoderPolls SpecEncoder EncoderProofs AwaitedWrites SpecLively
  RoundTrip TextFacts OutcomeFacts RepeatFacts StreamOutcome SpecOutcome SpecOrdinary OrdinaryProofs AllWork.
Arguments N.add : simpl never.
Arguments N.sub : simpl never.

Lemma obliging_app a b : obliging (a ++ b) <-> obliging a /\ obliging b.
Proof. apply Forall_app. Qed.
Lemma waits_app a b : waits (a ++ b) = (waits a + waits b)%nat.
Proof. unfold waits. now rewrite filter_app, app_length. Qed.
Lemma waits_cons b : waits (WPending :: b) = Datatypes.S (waits b).
Proof. reflexivity. Qed.
Lemma polls_app {cd} (E : engine cd) l1 : forall l2 (sw : stream_writer cd) g w,
  coded_polls E (l1 ++ l2) sw g w =
  let '(xs, sw1, g1, w1) := coded_polls E l1 sw g w in let '(ys, sw2, g2, w2) := coded_polls E l2 sw1 g1 w1 in (xs ++ ys, sw2, g2, w2).
Proof.
  induction l1 as [|c l1 IH]; intros l2 sw g w; cbn [app coded_polls]; [now destruct (coded_polls E l2 sw g w) as [[[? ?] ?] ?]|].
  destruct (coded_poll E c sw g w) as [[[p sw1] g1] w1]. rewrite IH. destruct (coded_polls E l1 sw1 g1 w1) as [[[xs sw2] g2] w2].
  now destruct (coded_polls E l2 sw2 g2 w2) as [[[ys sw3] g3] w3].
Qed.
Lemma taken_app xs ys : taken (xs ++ ys) = taken xs ++ taken ys.
Proof. unfold taken. now rewrite map_app, concat_app. Qed.

Section Lively.
Context {cd : codec} (E : engine cd) (view : eg_state E -> est cd * bytes * bool) (OK : engine_ok cd E view) (LV : engine_lively cd E view).

(** what awaiting leaves: the polls that were made, and a stream that can go on *)
Definition went_on (sw : stream_writer cd) (g : eg_state E) (w : world) (b : bytes) (x : option (res (stream_writer cd * eg_state E)) * world) : Prop :=
  exists sw' g' xs, fst x = Some (Ok (sw', g')) /\ coded_polls E (map fst xs) sw g w = (xs, sw', g', snd x) /\ taken xs = b /\
    Forall (fun y => ~ poll_failed y) xs /\ snd (view g') = false /\ exists u, w_sched w = u ++ w_sched (snd x).

Lemma went_nothing sw g w : snd (view g) = false -> went_on sw g w [] (Some (Ok (sw, g)), w).
Proof. intro F. exists sw, g, []. repeat split; try easy. now exists []. Qed.
Lemma went_then sw g w p c b b' x : snd (view g) = false -> ~ poll_failed (c, p) -> reported (c, p) = b ->
  forall sw1 g1 w1, coded_poll E c sw g w = (p, sw1, g1, w1) -> (exists u, w_sched w = u ++ w_sched w1) -> went_on sw1 g1 w1 b' x -> went_on sw g w (b ++ b') x.
Proof.
  intros F P R sw1 g1 w1 C (u & U) (sw' & g' & xs & X1 & X2 & X3 & X4 & X5 & (u2 & U2)). exists sw', g', ((c, p) :: xs). split; [exact X1|]. split.
  { cbn [map fst coded_polls]. rewrite C, X2. reflexivity. }
  split; [unfold taken in *; cbn [map concat]; now rewrite R, X3|]. split; [now constructor|]. split; [exact X5|]. exists (u ++ u2). now rewrite U, U2, app_assoc.
Qed.

Lemma write_gets_done k : forall b sw g w, (waits (w_sched w) + length b <= k)%nat -> obliging (w_sched w) -> snd (view g) = false ->
  went_on sw g w b (await_write E k b sw g w).
Proof.
  induction k as [|k IH]; intros [|x b] sw g w L OB F; try (cbn [await_write]; now apply went_nothing); [cbn [length] in L; lia|].
  cbn [await_write]. remember (x :: b) as B eqn:EB. assert (NN : B <> []) by (rewrite EB; discriminate). clear EB. pose proof (LV (EWrite B) g w) as H. pose proof (proj2 OK (EWrite B) g w) as H2.
  destruct (coded_poll E (PollWrite B) sw g w) as [[[p sw1] g1] w1] eqn:C. pose proof C as C0. cbn [coded_poll] in C. unfold coded_poll_write in C.
  destruct (eg_poll E (EWrite B) g w) as [[q gq] wq]. destruct H as (FK & u & U & H). fold (w_sched w) in U. fold (w_sched wq) in U. specialize (FK ltac:(discriminate)). rewrite F in FK.
  pose proof OB as OB2. rewrite U in OB2. apply obliging_app in OB2 as [OU OQ].
  destruct q as [|n|e]; injection C as <- <- <- <-.
  - apply in_split in H as (u1 & u2 & ->). rewrite U in L. rewrite !waits_app, waits_cons in L.
    refine (went_then sw g w WPend (PollWrite B) [] B _ F (fun X => X) eq_refl _ _ _ C0 _ _); [eauto|]. apply IH; [lia|exact OQ|exact FK].
  - assert (NB : n <= len B).
    { destruct (view g) as [[st kept] fin], (view gq) as [[st' kept'] fin']. now destruct H2 as (fd & o & la & se & _ & _ & _ & _ & _ & ? & _). }
    specialize (H NN). destruct (N.eqb_spec n 0) as [Z|Z]; [lia|].
    assert (TD : take n B ++ drop n B = B) by apply take_drop.
    enough (W : went_on sw g w (take n B ++ drop n B) (await_write E k (drop n B) (sw_advance sw (hasher_update (sw_hasher sw) (take n B)) (sw_uoffset sw + n) (sw_enc sw)) gq wq)) by (rewrite TD in W; exact W).
    refine (went_then sw g w (WDone n) (PollWrite B) (take n B) (drop n B) _ F (fun X => X) eq_refl _ _ _ C0 _ _); [eauto|].
    apply IH; [|exact OQ|exact FK]. pose proof (len_drop n B) as LD. unfold len in LD, NB. rewrite U, waits_app in L. lia.
  - exfalso. destruct H as [H|[H _]]; [now apply H|congruence].
Qed.
Lemma flush_gets_done k : forall sw g w, (waits (w_sched w) < k)%nat -> obliging (w_sched w) -> snd (view g) = false ->
  went_on sw g w [] (await_flush E k sw g w).
Proof.
  induction k as [|k IH]; intros sw g w L OB F; [lia|].
  cbn [await_flush]. pose proof (LV EFlush g w) as H.
  destruct (coded_poll E PollFlush sw g w) as [[[p sw1] g1] w1] eqn:C. pose proof C as C0. cbn [coded_poll] in C.
  destruct (eg_poll E EFlush g w) as [[q gq] wq]. destruct H as (FK & u & U & H). fold (w_sched w) in U. fold (w_sched wq) in U. specialize (FK ltac:(discriminate)). rewrite F in FK.
  pose proof OB as OB2. rewrite U in OB2. apply obliging_app in OB2 as [OU OQ].
  injection C as <- <- <- <-. destruct q as [|n|e].
  - apply in_split in H as (u1 & u2 & ->). rewrite U in L. rewrite !waits_app, waits_cons in L.
    apply (went_then sw g w WPend PollFlush [] [] _ F (fun X => X) eq_refl _ _ _ C0); [eauto|]. apply IH; [lia|exact OQ|exact FK].
  - apply (went_then sw g w (WDone n) PollFlush [] [] _ F (fun X => X) eq_refl _ _ _ C0); [eauto|]. now apply went_nothing.
  - exfalso. destruct H as [H|[H _]]; [now apply H|congruence].
Qed.
Lemma body_gets_done k l : forall sw g w,
  Forall (fun x => match x with SWriteAll b => (waits (w_sched w) + length b <= k)%nat | SFlush => True end) l -> (waits (w_sched w) < k)%nat ->
  obliging (w_sched w) -> snd (view g) = false -> went_on sw g w (fed_bytes l) (await_body E k l sw g w).
Proof.
  induction l as [|o l IH]; intros sw g w P L OB F; cbn [await_body]; [now apply went_nothing|]. apply Forall_cons_iff in P as [P1 P2].
  assert (H : went_on sw g w (match o with SWriteAll b => b | SFlush => [] end)
    (match o with SWriteAll b => await_write E k b sw g w | SFlush => await_flush E k sw g w end)).
  { destruct o as [b|]; [now apply write_gets_done|now apply flush_gets_done]. }
  destruct (match o with SWriteAll b => await_write E k b sw g w | SFlush => await_flush E k sw g w end) as [r w1].
  destruct H as (sw1 & g1 & xs & H1 & H2 & H3 & H4 & H5 & (u & U)). cbn [fst snd] in *. subst r.
  assert (LE : (waits (w_sched w1) <= waits (w_sched w))%nat) by (rewrite U, waits_app; lia).
  specialize (IH sw1 g1 w1). destruct IH as (sw2 & g2 & ys & I1 & I2 & I3 & I4 & I5 & (u2 & U2)).
  { eapply Forall_impl; [|exact P2]. intros [b|]; cbv beta iota; lia. }
  { lia. } { rewrite U in OB. now apply obliging_app in OB. } { exact H5. }
  destruct (await_body E k l sw1 g1 w1) as [r2 w2]. cbn [fst snd] in *. exists sw2, g2, (xs ++ ys). split; [exact I1|]. split.
  { rewrite map_app, polls_app, H2, I2. reflexivity. }
  split; [rewrite taken_app, H3, I3; reflexivity|]. split; [now apply Forall_app|]. split; [exact I5|]. exists (u ++ u2). cbn [snd]. now rewrite U, U2, app_assoc.
Qed.
Lemma close_gets_done k : forall g w, (waits (w_sched w) < k)%nat -> obliging (w_sched w) -> fst (await_close E k g w) = Some (Ok tt).
Proof.
  induction k as [|k IH]; intros g w L OB; [lia|]. cbn [await_close]. pose proof (LV EClose g w) as H.
  destruct (eg_poll E EClose g w) as [[q gq] wq]. destruct H as (_ & u & U & H). fold (w_sched w) in U. fold (w_sched wq) in U.
  pose proof OB as OB2. rewrite U in OB2. apply obliging_app in OB2 as [OU OQ]. destruct q as [|n|e].
  - apply in_split in H as (u1 & u2 & ->). rewrite U in L. rewrite !waits_app, waits_cons in L. apply IH; [lia|exact OQ].
  - reflexivity.
  - exfalso. destruct H as [H|[_ H]]; [now apply H|now apply H].
Qed.
End Lively.

(** ** Closing *)
Lemma closing_ends {cd} pre e w sw w1 content z u f w2 : entry_fine e -> roomy e -> w_force_no w = false ->
  stream_open cd pre e w = (Ok sw, w1) -> moved w1 w2 z u f ->
  let '(r, w3) := stream_close (fed sw content None) w2 in
  r = Ok tt \/ exists io u, r = Err (UpstreamReadError io) /\ w_sched w2 = u ++ w_sched w3 /\ faulty u io.
Proof.
  intros EF RM FN OP M2. pose proof (stream_open_spec cd pre e w) as O. cbv zeta in O. rewrite OP, FN in O. cbn [andb] in O.
  destruct (so_refused false e) as [x|] eqn:R; [now destruct O|].
  destruct O as (us & M1 & _ & enc & NE & ->). destruct (so_count _ _ R) as [C1 _].
  set (head := head_bytes (so_lfh false e) (so_e3 false e)) in *. set (off := w_offset w) in *. set (doff := off + len head) in *.
  pose proof (moved_offset _ _ _ _ _ M1) as MO1. replace (w_offset (so_world w)) with off in MO1 by (unfold so_world; now destruct (w_force_no w)).
  pose proof (moved_offset _ _ _ _ _ M2) as MO2. rewrite MO1 in MO2.
  pose proof (so_texts pre false e content z off) as TX.
  pose proof (roomy_short e _ _ _ RM TX) as LX.
  pose proof (sc_len pre false e content z off EF doff enc None) as LI.
  set (sw := fed (opened pre false e off doff enc) content None) in *.
  rewrite stream_close_eq; [|exact C1|reflexivity].
  change (sw_enc sw) with (@None (est cd)). cbn [fin_writes puts]. unfold bind at 1, ret at 1.
  assert (CS : w_offset w2 - doff = len z) by (unfold doff; rewrite MO2; lia).
  unfold close_rest. cbv zeta. change (sw_data_offset sw) with doff. change (sw_force_no sw) with false. rewrite CS, LI. cbn [andb].
  replace (len (spec_extras (en_extra (so_e3 false e))) + 8 <? 65536) with true by lia. cbn [negb].
  unfold bind. pose proof (puts_ok (sc_descriptor sw (len z)) w2) as P. unfold put_ok in P.
  destruct (puts (sc_descriptor sw (len z)) w2) as [[y|y|p] w4]; cbn [fst snd] in P; destruct P as (u4 & P); [| |easy].
  2:{ right. destruct P as (io & p & -> & _ & M & Fa). exists io, u4. split; [reflexivity|]. split; [exact (proj1 M)|exact Fa]. }
  change (en_comment (sw_entry sw)) with (en_comment (so_e3 false e)). rewrite (proj2 (so_name pre false e content z off)).
  change (basic_bytes (en_comment e)) with (stored_bytes (en_comment e)). destruct RM as (_ & _ & RC).
  replace (len (stored_bytes (en_comment e)) <? 65536) with true by lia.
  rewrite push_and_check_eq. cbv zeta. destruct (NON_ZIP64_MAX_NUM_FILES <? _); now left.
Qed.
Lemma closing_works {cd} pre e w sw w1 content z u f w2 : entry_fine e -> roomy e -> w_force_no w = false ->
  stream_open cd pre e w = (Ok sw, w1) -> moved w1 w2 z u f -> obliging (w_sched w2) -> fst (stream_close (fed sw content None) w2) = Ok tt.
Proof.
  intros EF RM FN OP M2 OB. pose proof (closing_ends pre e w sw w1 content z u f w2 EF RM FN OP M2) as H. destruct (stream_close (fed sw content None) w2) as [r w3].
  destruct H as [H|(io & u4 & _ & U & Fa)]; [exact H|]. exfalso. apply obliging_steady in OB. rewrite U in OB. apply steady_app in OB as [OB _]. exact (steady_faulty _ _ OB Fa).
Qed.

(** ** One call *)
Lemma leaves_body cd no64 pre e body closed it : leaves cd no64 (OpStream pre e [SWriteAll (fed_bytes body)] closed) it <-> leaves cd no64 (OpStream pre e body closed) it.
Proof.
  assert (FB : fed_bytes [SWriteAll (fed_bytes body)] = fed_bytes body) by apply app_nil_r. split; intro H.
  - remember (OpStream pre e [SWriteAll (fed_bytes body)] closed) as o eqn:EO. destruct H as [e0 d z off H|e0 z off|e0 b z off H|e0 b off]; try discriminate EO; injection EO; intros; subst.
    + rewrite FB in *. now constructor.
    + rewrite FB. constructor.
  - remember (OpStream pre e body closed) as o eqn:EO. destruct H as [e0 d z off H|e0 z off|e0 b z off H|e0 b off]; try discriminate EO; injection EO; intros; subst.
    + pose proof (leaves_stream cd no64 e [SWriteAll (fed_bytes body)] z off) as L. rewrite FB in L. now apply L.
    + pose proof (leaves_stream_pre cd no64 e [SWriteAll (fed_bytes body)] off) as L. rewrite FB in L. exact L.
Qed.
Lemma linked_body cd w pre e body closed r w' : linked cd w (OpStream pre e [SWriteAll (fed_bytes body)] closed) r w' -> linked cd w (OpStream pre e body closed) r w'.
Proof.
  intros [S EV KF KC KZ KS _]. constructor; try assumption; [|destruct closed; discriminate].
  intros OF LB. destruct (S OF LB) as [C NW TM|c it img WE C B OFF LV EL FN I64 CNT Z]; [now apply step_none|].
  eapply step_some; try eassumption. now apply leaves_body.
Qed.
Lemma call_works cd o w : enc_takes cd -> handy o -> w_force_no w = false -> obliging (w_sched w) -> fst (run_op cd o w) = Ok tt.
Proof.
  intros T H FN OB. pose proof (run_op_calm cd o w (obliging_steady _ OB)) as C. pose proof (handy_works cd o (calmw w) T H FN eq_refl) as HW.
  destruct (run_op cd o w) as [r w'], (run_op cd o (calmw w)) as [r0 w0]. cbn [fst] in *. now destruct C as (-> & _).
Qed.

Lemma awaited_works cd (E : engine cd) view k o w : enc_takes cd -> engine_ok cd E view -> engine_lively cd E view -> handy o -> patient k (w_sched w) o ->
  w_force_no w = false -> obliging (w_sched w) -> exists w', awaited_op cd E k o w = (Some (Ok tt), w') /\ linked cd w o (Ok tt) w'.
Proof.
  intros T OK LV H PA FN OB. pose proof H as (_ & G & _ & RM).
  assert (OTHERS : exists w', (let '(r, w') := run_op cd o w in (Some r, w')) = (Some (Ok tt), w') /\ linked cd w o (Ok tt) w').
  { pose proof (call_works cd o w T H FN OB) as CW. pose proof (call_linked cd o w T G) as L. destruct (run_op cd o w) as [r w']. cbn [fst snd] in *. subst r. now exists w'. }
  destruct o as [| |c|e d|e d|pre e body closed]; try exact OTHERS. unfold awaited_op.
  destruct (stream_open cd pre e w) as [[sw|x|p] w1] eqn:OP; try exact OTHERS. destruct (sw_enc sw) as [st|] eqn:EN; [|exact OTHERS]. clear OTHERS.
  pose proof (mild_open cd pre e w) as (MO & CO). rewrite OP in MO. cbn [snd] in MO. destruct MO as [(_ & _ & _ & (u0 & U0)) _ _].
  assert (OB1 : obliging (w_sched w1)) by (rewrite U0 in OB; now apply obliging_app in OB).
  assert (LE : (waits (w_sched w1) <= waits (w_sched w))%nat) by (rewrite U0, waits_app; lia).
  destruct (opened_enc _ _ _ _ _ _ _ OP EN) as (-> & NS & ND & ->). destruct PA as [PA PK]. destruct G as [GF GS].
  set (st0 := enc_init cd (en_compression e) LDefault) in *.
  assert (NV : snd (view (eg_new E st0)) = false) by now rewrite (proj1 OK).
  pose proof (body_gets_done E view OK LV k body sw (eg_new E st0) w1) as B.
  destruct (await_body E k body sw (eg_new E st0) w1) as [r w2]. destruct B as (sw' & g & xs & B1 & B2 & B3 & B4 & B5 & (u & U)).
  { eapply Forall_impl; [|exact PA]. intros [b|]; cbv beta iota; lia. }
  { lia. } { exact OB1. } { exact NV. }
  cbn [fst snd] in *. subst r.
  assert (OB2 : obliging (w_sched w2)) by (rewrite U in OB1; now apply obliging_app in OB1).
  assert (LE2 : (waits (w_sched w2) <= waits (w_sched w1))%nat) by (rewrite U, waits_app; lia).
  pose proof (fun k => visit_linked cd E view (Polls false e (map fst xs) k) w T OK) as VL. cbn [run_visit] in VL. rewrite OP, EN, B2 in VL.
  assert (G1 : forall c, op_good (OpStream false e [SWriteAll (taken xs)] c)).
  { intro c. split; [exact GF|]. unfold op_sized in *. rewrite B3. cbn [fed_bytes map concat]. unfold fed_bytes at 1. cbn [map concat]. now rewrite app_nil_r. }
  assert (CL : forall r w3, coded_close E (if closed then k else 0%nat) sw' g w2 = (r, w3) -> match r with Some x => closed = true /\ linked cd w (OpStream false e body closed) x w3
    | None => closed = false -> linked cd w (OpStream false e body closed) (Ok tt) w3 end).
  { intros r w3 CC. specialize (VL (if closed then k else 0%nat)). rewrite CC in VL. destruct r as [x|].
    - cbn [counts_as fst snd] in VL. assert (CT : closed = true) by (destruct closed; [reflexivity|cbn in CC; discriminate CC]). split; [exact CT|]. rewrite CT.
      apply linked_body. rewrite <- B3. apply VL; [apply G1|]. right. right. exact B4.
    - intros ->. cbn [counts_as fst snd] in VL. apply linked_body. rewrite <- B3. apply VL; [apply G1|exact I]. }
  destruct closed.
  - pose proof (close_gets_done E view LV k g w2 ltac:(lia) OB2) as CG. unfold coded_close in *.
    pose proof (await_moves E view OK k g w2) as AM. pose proof (coded_moves E view OK (map fst xs) sw (eg_new E st0) w1) as CM. rewrite B2 in CM.
    pose proof (coded_through E view OK st0 w1 (map fst xs) sw (eg_new E st0) w1 []) as CT. rewrite (proj1 OK), B2 in CT.
    destruct CT as (_ & ES); [|exact B4|]. { exists [], [], [], 0. split; [constructor|]. split; [reflexivity|apply moved_refl]. }
    destruct (await_close E k g w2) as [x w3]. cbn [fst] in CG. subst x. destruct AM as (b3 & u3 & f3 & M3), CM as (b2 & u2 & f2 & M2).
    assert (OB3 : obliging (w_sched w3)) by (rewrite (proj1 M3) in OB2; now apply obliging_app in OB2).
    pose proof (closing_works false e w sw w1 (taken xs) _ _ _ w3 GF RM FN OP (moved_trans _ _ _ _ _ _ _ _ _ M2 M3) OB3) as CW.
    rewrite ES, unencoded_fed in *. destruct (stream_close (fed sw (taken xs) None) w3) as [r w4]. cbn [fst] in CW. subst r. exists w4. split; [reflexivity|].
    exact (proj2 (CL _ _ eq_refl)).
  - exists w2. split; [reflexivity|]. exact (CL None w2 eq_refl eq_refl).
Qed.

(** ** All of them *)
Lemma patient_less k s u o : patient k (u ++ s) o -> patient k s o.
Proof.
  destruct o as [| | | | |pre e body closed]; try exact (fun H => H). intros [A B]. rewrite waits_app in B. split; [|lia].
  eapply Forall_impl; [|exact A]. intros [b|]; cbv beta iota; [|auto]. rewrite waits_app. lia.
Qed.
Lemma all_awaited cd (E : engine cd) view k : enc_takes cd -> engine_ok cd E view -> engine_lively cd E view -> forall l, Forall handy l -> forall w,
  Forall (patient k (w_sched w)) l -> w_force_no w = false -> obliging (w_sched w) ->
  exists w', awaited_ops cd E k l w = (map (fun o => (o, Some (Ok tt))) l, w') /\ chain cd w (map (fun o => (o, Ok tt)) l) w'.
Proof.
  intros T OK LV. induction 1 as [|o l H _ IH]; intros w P FN OB; cbn [awaited_ops map]; [exists w; split; [reflexivity|constructor]|].
  apply Forall_cons_iff in P as [P P']. destruct (awaited_works cd E view k o w T OK LV H P FN OB) as (w1 & A & L). rewrite A.
  pose proof (ln_evol _ _ _ _ _ L) as (_ & _ & _ & (u & U)).
  destruct (IH w1) as (w2 & -> & C).
  - rewrite U in P'. eapply Forall_impl; [|exact P']. intros x. apply patient_less.
  - rewrite (ln_force _ _ _ _ _ L), FN. destruct H as (NF & _). destruct o; try reflexivity. now elim NF.
  - rewrite U in OB. now apply obliging_app in OB.
  - exists w2. split; [reflexivity|]. econstructor; eassumption.
Qed.
Lemma handy_not_no l : Forall handy l -> fold_left no_after l false = false.
Proof. induction 1 as [|o l (NF & _) _ IH]; [reflexivity|]. cbn [fold_left]. replace (no_after false o) with false; [exact IH|]. destruct o; try reflexivity. now elim NF. Qed.
Lemma close_works w : cds_short w -> w_force_no w = false -> obliging (w_sched w) -> fst (zw_close w) = Ok tt.
Proof.
  intros S FN OB. apply obliging_steady in OB. pose proof (wsim_close w) as H. unfold sim_at in H.
  pose proof (close_calm (calmw w)) as CC. specialize (CC S eq_refl). change (w_force_no (calmw w)) with (w_force_no w) in CC. rewrite FN, andb_false_r in CC. specialize (CC eq_refl).
  destruct (zw_close w) as [r w'], (zw_close (calmw w)) as [r0 w0]. cbn [fst] in *.
  destruct H as (_ & _ & u & U & [(-> & _)|(io & _ & F & _)]); [exact CC|]. rewrite U in OB. apply steady_app in OB as [S2 _]. now apply (steady_faulty u io) in F.
Qed.
Lemma come_back cd d l sts : Forall ordinary_op l -> Forall proper l ->
  Forall2 (fun x st => exists it, leaves cd (fst x) (snd x) it /\ as_written d it st /\ texts_kept it st) (map (fun o => (false, o)) l) sts ->
  Forall2 (fun o st => exists e, op_entry o = Some e /\ comes_back e st) l sts.
Proof.
  intros OO PR. revert sts. induction l as [|o os IH]; intros sts F; cbn [map] in F; inversion F as [|x st xs' sts' HX F']; subst; [constructor|].
  apply Forall_cons_iff in OO as [OO O'], PR as [PR P']. constructor; [|now apply IH].
  destruct HX as (it & LV & AS & TK). apply leaves_entry in LV. cbn [snd] in LV. exists (i_entry it). split; [exact LV|].
  unfold ordinary_op in OO. unfold proper in PR. rewrite LV in OO, PR. destruct OO as (PN & PC & _).
  destruct TK as ((N1 & N2 & _) & (C1 & C2 & _)). { split; [apply PR|]. split; [apply PR|]. left. now split. }
  unfold as_written in AS. cbv zeta in AS. destruct AS as (_ & _ & A3 & A4 & A5 & A6 & _).
  unfold comes_back. cbv zeta. destruct PN as [PN _], PC as [PC _]. ands; auto.
Qed.

Lemma awaited_round_trip cd (E : engine cd) view cfg k sched l : codec_ok cd -> engine_ok cd E view -> engine_lively cd E view ->
  obliging sched -> Forall (patient k sched) l -> Forall handy l -> Forall ordinary_op l -> Forall proper l -> ordinary l -> filter writes_entry l <> [] ->
  entry_mem_size cfg <= 0x1000000000000 ->
  let '(outs, r, w) := awaited_archive cd E k sched l in
  let d := w_bytes w in
  outs = map (fun o => (o, Some (Ok tt))) l /\ r = Ok tt /\
  (len d < 0x5000000 -> forall s, s_data s = d -> nofail (s_sched s) ->
   exists f, fst (file cfg s) = Ok f /\ mem_new cfg d = Ok {| m_data := d; m_file := f |} /\ f_zip64 f = w_zip64 w /\
     comment_reads_as (last_comment l) (f_comment f) /\
     Forall2 (fun o st => exists e, op_entry o = Some e /\ comes_back e st) (filter writes_entry l) (f_entries f) /\
     (forall i o data, nth_error (filter writes_entry l) (N.to_nat i) = Some o -> holds cd o data ->
        read_entry cd f i s = Ok data /\ mem_read_entry cd {| m_data := d; m_file := f |} i = Ok data)).
Proof.
  intros K OK LV OB PA H OO PR ORD NE MEM. pose proof (proj1 K) as T. unfold awaited_archive.
  destruct (all_awaited cd E view k T OK LV l H (zw_new sched) PA eq_refl OB) as (w & -> & CH).
  assert (R : fst (zw_close w) = Ok tt).
  { apply close_works.
    - exact (chain_short _ _ _ _ CH ltac:(constructor)).
    - rewrite (chain_force _ _ _ _ CH), map_map. cbn [fst]. rewrite map_id. now apply handy_not_no.
    - destruct (chain_evol _ _ _ _ CH) as (_ & _ & _ & (u & U)). change (w_sched (zw_new sched)) with sched in U. rewrite U in OB. now apply obliging_app in OB. }
  destruct (zw_close w) as [r w'] eqn:CL. cbn [fst] in R. subst r. cbv zeta. split; [reflexivity|]. split; [reflexivity|]. intros LD s SD NF.
  destruct (chain_shape _ _ _ _ _ CH CL ltac:(lia)) as (its & ms & SH). set (xs := map (fun o => (o, Ok tt)) l) in *.
  assert (ML : map fst xs = l) by (unfold xs; rewrite map_map; apply map_id). rewrite ML in SH.
  assert (SU : succeeded false xs = map (fun o => (false, o)) (filter writes_entry l)) by now apply succeeded_all.
  assert (TM : Forall (fun x => too_many (snd x) = false) xs) by (apply Forall_forall; intros x I; apply in_map_iff in I as (o & <- & _); reflexivity).
  assert (U : unambiguous cd cfg l xs (w_zip64 w') (w_bytes w')).
  { apply (shape_unambiguous _ _ _ _ _ _ _ _ _ SH ML TM ORD MEM LD). right. left. split; [|exact OO]. rewrite SU. now destruct (filter writes_entry l). }
  destruct (shape_back _ cfg s _ _ _ _ _ _ _ K SH U SD NF) as (f & F1 & F2 & F3 & F4 & F5 & F6). exists f.
  split; [exact F1|]. split; [exact F2|]. split; [exact F3|]. split; [exact F4|]. rewrite SU in *. split.
  - eapply come_back; [| |exact F5]; apply Forall_forall; intros o I; apply filter_In in I as [I _]; [now apply (proj1 (Forall_forall _ _) OO)|now apply (proj1 (Forall_forall _ _) PR)].
  - intros i o data NT HO. apply (F6 i false o data); [rewrite nth_error_map, NT; reflexivity|exact HO|].
    intros it L. apply leaves_no64 in L. unfold straight, i_swapped. rewrite L, andb_false_r. discriminate.
Qed.
