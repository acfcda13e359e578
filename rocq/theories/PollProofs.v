(** Polled streams. *)
From Verif Require Import Base BaseFacts Crc32 CrcFacts SpecWrite ZString ZDate Headers ExtraField Entry IO IOFacts Reader EntryReader Writer WriterFacts StreamFacts
  StreamOutcome SpecRecut RecutProofs StreamPolls SpecPolls.

(** ** The polls *)
Lemma poll_write_moved b w : let '(p, w') := ow_poll_write b w in
  exists u, match p with WDone n => n <= len b /\ moved w w' (take n b) u 0 | _ => moved w w' [] u 0 end.
Proof.
  destruct w as [[kw kf kc ks] o c f z cm]. unfold ow_poll_write, sink_poll_write, set_sink. cbn.
  destruct ks as [|[|k|c0] r].
  - exists []. split; [lia|]. unfold moved, w_sched. cbn. split; [easy|].
    rewrite N.min_id, (take_all (len b) b) by lia. now rewrite N.add_0_r.
  - exists [WPending]. unfold moved, w_sched. cbn. split; [easy|]. now rewrite app_nil_r, !N.add_0_r.
  - exists [WAccept k]. split; [lia|]. unfold moved, w_sched. cbn. split; [easy|]. rewrite len_take, N.add_0_r.
    now replace (N.min (N.min k (len b)) (len b)) with (N.min k (len b)) by lia.
  - exists [WFail c0]. unfold moved, w_sched. cbn. split; [easy|]. now rewrite app_nil_r, !N.add_0_r.
Qed.
Lemma poll_flush_moved w : let '(p, w') := ow_poll_flush w in exists u f, moved w w' [] u f.
Proof.
  destruct w as [[kw kf kc ks] o c f z cm]. unfold ow_poll_flush, sink_poll_flush, set_sink. cbn.
  destruct ks as [|[|k|c0] r]; [exists [], 1|exists [WPending], 0|exists [WAccept k], 1|exists [WFail c0], 0];
    unfold moved, w_sched; cbn; (split; [easy|]); now rewrite app_nil_r, !N.add_0_r.
Qed.
Lemma first_buffer_take n bs : n <= len (first_buffer bs) -> take n (concat bs) = take n (first_buffer bs).
Proof.
  induction bs as [|[|x b] bs IH]; cbn [first_buffer concat app]; intro H; [reflexivity|now apply IH|].
  change (x :: b ++ concat bs) with ((x :: b) ++ concat bs). now apply take_app_le.
Qed.
Lemma raw_write_ok {cd} b (sw : stream_writer cd) w : sw_enc sw = None ->
  let '(p, sw', w') := raw_poll_write sw b w in
  exists u, match p with
  | WDone n => n <= len b /\ moved w w' (take n b) u 0 /\ sw' = fed sw (take n b) None
  | _ => moved w w' [] u 0 /\ sw' = sw
  end.
Proof.
  intro EN. unfold raw_poll_write. pose proof (poll_write_moved b w) as H. destruct (ow_poll_write b w) as [[|n|e] w']; destruct H as (u & H); exists u.
  - now split.
  - destruct H as [H1 H2]. split; [easy|]. split; [easy|]. unfold fed. rewrite EN, len_take. now replace (N.min n (len b)) with n by lia.
  - now split.
Qed.
Lemma raw_poll_ok {cd} c (sw : stream_writer cd) w : sw_enc sw = None ->
  let '(p, sw', w') := raw_poll c sw w in
  exists u f, moved w w' (reported (c, p)) u f /\ sw' = fed sw (reported (c, p)) None.
Proof.
  intro EN. assert (Z : sw = fed sw [] None) by (rewrite <- EN; symmetry; apply fed_nil). destruct c as [b|bs| |]; cbn [raw_poll].
  - pose proof (raw_write_ok b sw w EN) as H. destruct (raw_poll_write sw b w) as [[[|n|e] sw'] w']; destruct H as (u & H); exists u, 0; cbn [reported].
    + destruct H as [H ->]. now split.
    + tauto.
    + destruct H as [H ->]. now split.
  - pose proof (raw_write_ok (first_buffer bs) sw w EN) as H.
    destruct (raw_poll_write sw (first_buffer bs) w) as [[[|n|e] sw'] w']; destruct H as (u & H); exists u, 0; cbn [reported].
    + destruct H as [H ->]. now split.
    + destruct H as (L & H). now rewrite first_buffer_take.
    + destruct H as [H ->]. now split.
  - pose proof (poll_flush_moved w) as H. destruct (ow_poll_flush w) as [p w']. destruct H as (u & f & H). exists u, f.
    replace (reported (PollFlush, p)) with (@nil byte) by now destruct p. now split.
  - exists [], 0. cbn [reported]. split; [apply moved_refl|exact Z].
Qed.
Lemma raw_polls_ok {cd} l : forall (sw : stream_writer cd) w, sw_enc sw = None ->
  let '(xs, sw', w') := raw_polls l sw w in
  exists u f, moved w w' (taken xs) u f /\ sw' = fed sw (taken xs) None.
Proof.
  induction l as [|c l IH]; intros sw w EN; cbn [raw_polls].
  - exists [], 0. split; [apply moved_refl|]. rewrite <- EN. symmetry. apply fed_nil.
  - pose proof (raw_poll_ok c sw w EN) as H. destruct (raw_poll c sw w) as [[p sw1] w1]. destruct H as (u1 & f1 & M1 & ->).
    specialize (IH (fed sw (reported (c, p)) None) w1 eq_refl). destruct (raw_polls l _ w1) as [[xs sw2] w2].
    destruct IH as (u2 & f2 & M2 & ->). exists (u1 ++ u2), (f1 + f2). unfold taken. cbn [map concat]. split.
    + exact (moved_trans _ _ _ _ _ _ _ _ _ M1 M2).
    + apply fed_fed.
Qed.

(** ** Sessions *)
Definition still (w : world) : world := unflushed (calmw w).
Lemma still_alike {A} (m : SM world A) w v : wsim m -> deaf m -> w_sched v = [] -> still w = unflushed v ->
  (forall io, fst (m w) <> Err (UpstreamReadError io)) ->
  fst (m v) = fst (m w) /\ still (snd (m w)) = unflushed (snd (m v)) /\ w_sched (snd (m v)) = [].
Proof.
  intros W D S E N. specialize (W w). unfold sim_at in W. destruct (deaf_alike m (calmw w) v D E) as [E1 E2].
  destruct (m w) as [r w']. destruct (m (calmw w)) as [r0 w0]. cbn [fst snd] in *.
  destruct W as (S0 & _ & u & _ & [(-> & Q & _)|(io & -> & _)]); [|now elim (N io)].
  split; [easy|]. unfold still. rewrite Q. split; [exact E2|]. rewrite <- (unflushed_sched _ _ E2). exact S0.
Qed.
Lemma opened_raw cd pre e w sw w1 : pre = true \/ en_compression e = Stored -> stream_open cd pre e w = (Ok sw, w1) -> sw_enc sw = None.
Proof.
  intros P H. pose proof (stream_open_spec cd pre e w) as SO. cbv zeta in SO. rewrite H in SO.
  destruct (w_force_no w && so_big e); [now destruct SO|]. destruct (so_refused (w_force_no w) e); [now destruct SO|].
  destruct SO as (u & _ & _ & enc & NE & ->). cbn [sw_enc StreamFacts.opened]. unfold new_enc in NE. destruct pre; [now injection NE|].
  destruct P as [P|P]; [discriminate|]. rewrite P in NE. now injection NE.
Qed.
Lemma step_alike cd s w v : raw_step s -> w_sched v = [] -> still w = unflushed v ->
  let '(r, xs, w') := run_step cd s w in
  (forall io, r <> Err (UpstreamReadError io)) ->
  let '(q, v') := run_op cd (amounts_to (s, (r, xs))) v in
  q = r /\ still w' = unflushed v' /\ w_sched v' = [].
Proof.
  intros RS S E. destruct s as [o|pre e l closed]; cbn [run_step].
  - pose proof (still_alike (run_op cd o) w v (wsim_run_op cd o) (deaf_run_op cd o) S E) as H.
    destruct (run_op cd o w) as [r w']. intro N. cbn [amounts_to]. destruct (run_op cd o v) as [q v']. cbn [fst snd] in H. now apply H.
  - pose proof (still_alike (stream_open cd pre e) w v (wsim_stream_open cd pre e) (deaf_stream_open cd pre e) S E) as H.
    pose proof (opened_raw cd pre e w) as OR.
    destruct (stream_open cd pre e w) as [[sw|x|p] w1].
    + destruct H as (H1 & H2 & H3); [intros io; discriminate|]. specialize (OR sw w1 RS eq_refl).
      pose proof (raw_polls_ok l sw w1 OR) as RP. destruct (raw_polls l sw w1) as [[xs sw'] w2]. destruct RP as (u & f & M & ->).
      destruct (stream_open cd pre e v) as [q v1] eqn:OV. cbn [fst snd] in *. subst q.
      assert (B : stream_body sw [SWriteAll (taken xs)] v1 = (Ok (fed sw (taken xs) None), wrote v1 (taken xs))).
      { cbn [stream_body]. unfold bind at 1. rewrite stored_write_all by exact OR. unfold bind. now rewrite write_all_calm by exact H3. }
      assert (W2 : still w2 = unflushed (wrote v1 (taken xs))).
      { unfold still. rewrite (moved_calm _ _ _ _ _ M). unfold still in H2.
        destruct w1 as [[a1 b1 c1 d1] e1 g1 h1 i1 j1], v1 as [[a2 b2 c2 d2] e2 g2 h2 i2 j2]. unfold unflushed, calmw, wrote, set_sink in *. cbn in *.
        injection H2 as -> -> _ -> -> -> -> ->. reflexivity. }
      destruct closed.
      * pose proof (still_alike (stream_close (fed sw (taken xs) None)) w2 (wrote v1 (taken xs)) (wsim_stream_close _) (deaf_stream_close _) eq_refl W2) as C.
        destruct (stream_close (fed sw (taken xs) None) w2) as [r w3]. intro N. cbn [amounts_to run_op]. unfold bind. rewrite OV, B.
        destruct (stream_close _ (wrote v1 (taken xs))) as [q v3]. cbn [fst snd] in C. now apply C.
      * unfold ret at 1. intros _. cbn [amounts_to run_op]. unfold bind. rewrite OV, B. now split.
    + intro N. cbn [amounts_to run_op]. unfold bind. destruct (stream_open cd pre e v) as [q v1]. cbn [fst snd] in H.
      destruct H as (-> & H2 & H3); [intros io X; injection X as ->; now apply (N io)|]. now split.
    + intro N. cbn [amounts_to run_op]. unfold bind. destruct (stream_open cd pre e v) as [q v1]. cbn [fst snd] in H.
      destruct H as (-> & H2 & H3); [intros io; discriminate|]. now split.
Qed.
Lemma steps_alike cd l : Forall raw_step l -> forall w v, w_sched v = [] -> still w = unflushed v ->
  let '(outs, w') := run_steps cd l w in
  Forall (fun x => ~ upstream (fst (snd x))) outs ->
  let '(ys, v') := run_ops cd (map amounts_to outs) v in
  map snd ys = map (fun x => fst (snd x)) outs /\ still w' = unflushed v' /\ w_sched v' = [].
Proof.
  induction 1 as [|s l RS _ IH]; intros w v S E; cbn [run_steps].
  - intros _. cbn. now split.
  - pose proof (step_alike cd s w v RS S E) as H. destruct (run_step cd s w) as [[r xs] w1].
    pose proof (fun v1 => IH w1 v1) as IH'. destruct (run_steps cd l w1) as [outs w2]. intro N. apply Forall_cons_iff in N. destruct N as [N1 N2].
    cbn [fst snd] in N1. cbn [map run_ops]. 
    assert (N1' : forall io, r <> Err (UpstreamReadError io)) by (intros io X; apply N1; now exists io).
    specialize (H N1'). destruct (run_op cd (amounts_to (s, (r, xs))) v) as [q v1]. destruct H as (-> & H2 & H3).
    specialize (IH' v1 H3 H2 N2). destruct (run_ops cd (map amounts_to outs) v1) as [ys v2]. destruct IH' as (I1 & I2 & I3).
    cbn [map snd fst]. rewrite I1. now split.
Qed.
Theorem polled_session cd sched l : Forall raw_step l ->
  let '(outs, w) := run_steps cd l (zw_new sched) in let '(r, w') := zw_close w in
  Forall (fun x => ~ upstream (fst (snd x))) outs -> ~ upstream r ->
  let '(ys, q, v) := run_archive cd [] (map amounts_to outs) in
  map snd ys = map (fun x => fst (snd x)) outs /\ q = r /\ w_bytes v = w_bytes w'.
Proof.
  intro RS. pose proof (steps_alike cd l RS (zw_new sched) (zw_new []) eq_refl eq_refl) as H.
  destruct (run_steps cd l (zw_new sched)) as [outs w]. pose proof (fun v => still_alike zw_close w v wsim_close deaf_close) as C.
  destruct (zw_close w) as [r w']. intros N NR. specialize (H N). unfold run_archive. destruct (run_ops cd (map amounts_to outs) (zw_new [])) as [ys v].
  destruct H as (H1 & H2 & H3). specialize (C v H3 H2). destruct (zw_close v) as [q v']. cbn [fst snd] in C.
  destruct C as (-> & C2 & _); [intros io ->; apply NR; now exists io|]. split; [exact H1|]. split; [reflexivity|].
  exact (eq_sym (f_equal w_bytes C2)).
Qed.
