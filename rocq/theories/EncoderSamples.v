(** An encoder that is polled, around any codec: it first hands over the output it kept, then takes input in and hands over what comes of it. *)
From Verif Require Import Base BaseFacts SpecWrite Headers Entry IO IOFacts EntryReader Writer WriterFacts StreamPolls SpecPolls PollProofs EncoderPolls SpecEncoder.

(** hands over as much of [kept] as the sink takes *)
Fixpoint drain (fu : nat) (kept : bytes) (w : world) : wpoll * bytes * world :=
  match fu, kept with
  | O, _ | _, [] => (WDone 0, kept, w)
  | S fu, _ =>
    match ow_poll_write kept w with
    | (WDone n, w') => if n =? 0 then (WErr WriteZero, kept, w') else drain fu (drop n kept) w'
    | (p, w') => (p, kept, w')
    end
  end.
Definition drained (kept : bytes) (w : world) : wpoll * bytes * world := drain (S (length kept)) kept w.

Definition buffered_poll (cd : codec) (c : encoder_call) (g : est cd * bytes * bool) (w : world) : wpoll * (est cd * bytes * bool) * world :=
  let '(st, kept, finished) := g in
  match c with
  | EWrite b =>
    if finished then (WErr (IoOther 0), g, w)
    else match b with
    | [] => (WDone 0, g, w)
    | _ =>
      match drained kept w with
      | (WDone _, kept, w1) =>
        let '(n, out, st') := enc_write cd st b in
        match drained (kept ++ out) w1 with
        | (WErr e, kept', w2) => (WErr e, (st', kept', false), w2)     (* with input taken in *)
        | (_, kept', w2) => (WDone n, (st', kept', false), w2)
        end
      | (p, kept', w1) => (p, (st, kept', false), w1)
      end
    end
  | EFlush =>
    if finished then (WErr (IoOther 0), g, w)
    else
      let '(out, st') := enc_flush cd st in
      match drained (kept ++ out) w with
      | (WDone _, kept', w1) => let '(p, w2) := ow_poll_flush w1 in (p, (st', kept', false), w2)
      | (p, kept', w1) => (p, (st', kept', false), w1)
      end
  | EClose =>
    let last := if finished then [] else enc_finish cd st in
    let '(p, kept', w1) := drained (kept ++ last) w in (p, (st, kept', true), w1)
  end.
Definition buffered (cd : codec) : engine cd :=
  {| eg_state := est cd * bytes * bool; eg_new st := (st, [], false); eg_poll := buffered_poll cd |}.

Lemma moved_passed w w' b u f : moved w w' b u f -> passed_on w w' b.
Proof.
  intros [U ->]. unfold passed_on, w_sched in *. destruct w as [[kw kf kc ks] o c fn z cm]. cbn in *.
  split; [now exists u|]. repeat (split; [reflexivity|]). split; [lia|]. repeat (split; [reflexivity|]). reflexivity.
Qed.
Lemma drain_ok fu : forall kept w, (length kept < fu)%nat -> let '(p, kept', w') := drain fu kept w in
  exists sent u, kept = sent ++ kept' /\ moved w w' sent u 0 /\ (forall n, p = WDone n -> kept' = []).
Proof.
  induction fu as [|fu IH]; intros kept w L; [lia|]. cbn [drain].
  destruct kept as [|x k]; [exists [], []; split; [reflexivity|]; split; [apply moved_refl|easy]|].
  pose proof (poll_write_moved (x :: k) w) as P. destruct (ow_poll_write (x :: k) w) as [[|n|e] w1]; destruct P as (u & P).
  - exists [], u. now split.
  - destruct P as [LN M]. destruct (N.eqb_spec n 0) as [->|Z].
    + exists [], u. now split.
    + specialize (IH (drop n (x :: k)) w1). destruct (drain fu (drop n (x :: k)) w1) as [[p kept'] w2].
      destruct IH as (sent & u2 & E & M2 & D).
      { pose proof (len_drop n (x :: k)) as LD. unfold len in LD. cbn [length] in *. lia. }
      exists (take n (x :: k) ++ sent), (u ++ u2). split; [|split; [exact (moved_trans _ _ _ _ _ _ _ _ _ M M2)|exact D]].
      rewrite <- app_assoc, <- E. symmetry. apply take_drop.
  - exists [], u. now split.
Qed.
Lemma drained_ok kept w : let '(p, kept', w') := drained kept w in
  exists sent u, kept = sent ++ kept' /\ moved w w' sent u 0 /\ (forall n, p = WDone n -> kept' = []).
Proof. apply drain_ok. lia. Qed.

Lemma runs_one cd st b n o st' : enc_write cd st b = (n, o, st') -> enc_runs cd st (take n b) o st'.
Proof. intro E. rewrite take_firstn, <- (app_nil_r (firstn _ b)), <- (app_nil_r o). exact (runs_write cd st b n o st' [] [] st' E (runs_nil cd st')). Qed.
Lemma runs_flushed cd st o st' : enc_flush cd st = (o, st') -> enc_runs cd st [] o st'.
Proof. intro E. rewrite <- (app_nil_r o). eapply runs_flush; [exact E|constructor]. Qed.
Theorem buffered_ok cd : enc_takes cd -> engine_ok cd (buffered cd) (fun g => g).
Proof.
  intro T. split; [reflexivity|]. intros c [[st kept] fin] w. cbn [eg_poll buffered buffered_poll].
  assert (Idle : forall p, match p with WErr _ => True | WPend => True | WDone n => exists b, c = EWrite b /\ n = 0 end ->
    exists fed out last sent, enc_runs cd st fed out st /\ kept ++ out ++ last = sent ++ kept /\ passed_on w w sent /\
      (fin = fin /\ last = [] \/ fin = false /\ fin = true /\ last = enc_finish cd st) /\ (fin = true -> fed = [] /\ out = [] /\ st = st) /\
      match p with
      | WErr _ => True | WPend => fed = []
      | WDone n => match c with EWrite b => n <= len b /\ fed = take n b | EFlush => fed = [] | EClose => fed = [] /\ fin = true /\ kept = [] end
      end).
  { intros p P. exists [], [], [], []. split; [constructor|]. split; [cbn [app]; apply app_nil_r|]. split; [exact (moved_passed _ _ _ _ _ (moved_refl w))|].
    split; [now left|]. split; [easy|]. destruct p; [reflexivity| |exact I]. destruct P as (b & -> & ->). split; [lia|]. rewrite take_firstn. reflexivity. }
  destruct c as [b| |].
  - destruct fin; [now apply (Idle (WErr (IoOther 0)))|]. destruct b as [|x b0]; [apply (Idle (WDone 0)); now exists []|]. set (b := x :: b0) in *.
    pose proof (drained_ok kept w) as D1. destruct (drained kept w) as [[[|n1|e] k1] w1]; destruct D1 as (s1 & u1 & E1 & M1 & _).
    + exists [], [], [], s1. split; [constructor|]. split; [cbn [app]; now rewrite app_nil_r|]. split; [exact (moved_passed _ _ _ _ _ M1)|]. split; [now left|]. easy.
    + pose proof (T st b ltac:(discriminate)) as TK. destruct (enc_write cd st b) as [[n out] st'] eqn:EW.
      pose proof (drained_ok (k1 ++ out) w1) as D2. destruct (drained (k1 ++ out) w1) as [[p2 k2] w2]; destruct D2 as (s2 & u2 & E2 & M2 & _).
      assert (G : enc_runs cd st (take n b) out st' /\ kept ++ out ++ [] = (s1 ++ s2) ++ k2 /\ passed_on w w2 (s1 ++ s2)).
      { split; [exact (runs_one _ _ _ _ _ _ EW)|]. split; [now rewrite app_nil_r, <- app_assoc, <- E2, E1, <- app_assoc|].
        exact (moved_passed _ _ _ _ _ (moved_trans _ _ _ _ _ _ _ _ _ M1 M2)). }
      destruct G as (G1 & G2 & G3). destruct p2 as [|n2|e]; (exists (take n b), out, [], (s1 ++ s2); split; [exact G1|]; split; [exact G2|]; split; [exact G3|]; split; [now left|]; split; [discriminate|]);
        [split; [apply TK|reflexivity]|split; [apply TK|reflexivity]|exact I].
    + exists [], [], [], s1. split; [constructor|]. split; [cbn [app]; now rewrite app_nil_r|]. split; [exact (moved_passed _ _ _ _ _ M1)|]. split; [now left|]. easy.
  - destruct fin; [now apply (Idle (WErr (IoOther 0)))|]. destruct (enc_flush cd st) as [out st'] eqn:EF.
    pose proof (drained_ok (kept ++ out) w) as D. destruct (drained (kept ++ out) w) as [[p k1] w1]; destruct D as (s1 & u1 & E1 & M1 & _).
    assert (G : forall u f w2, moved w1 w2 [] u f -> forall q, exists fed o last sent, enc_runs cd st fed o st' /\ kept ++ o ++ last = sent ++ k1 /\ passed_on w w2 sent /\
      (false = false /\ last = [] \/ false = false /\ false = true /\ last = enc_finish cd st') /\ (false = true -> fed = [] /\ o = [] /\ st' = st) /\
      match q with WErr _ => True | WPend => fed = [] | WDone n => fed = [] end).
    { intros u f w2 M q. exists [], out, [], s1. split; [exact (runs_flushed _ _ _ _ EF)|]. split; [now rewrite app_nil_r|].
      split; [rewrite <- (app_nil_r s1); exact (moved_passed _ _ _ _ _ (moved_trans _ _ _ _ _ _ _ _ _ M1 M))|]. split; [now left|]. split; [discriminate|now destruct q]. }
    destruct p as [|n|e].
    + exact (G _ _ _ (moved_refl w1) WPend).
    + pose proof (poll_flush_moved w1) as F. destruct (ow_poll_flush w1) as [p w2]. destruct F as (u2 & f2 & M2). exact (G _ _ _ M2 p).
    + exact (G _ _ _ (moved_refl w1) (WErr e)).
  - set (last := if fin then [] else enc_finish cd st). pose proof (drained_ok (kept ++ last) w) as D.
    destruct (drained (kept ++ last) w) as [[p k1] w1]; destruct D as (s1 & u1 & E1 & M1 & DN).
    exists [], [], last, s1. split; [constructor|]. split; [exact E1|]. split; [exact (moved_passed _ _ _ _ _ M1)|].
    split; [unfold last; destruct fin; [now left|now right]|]. split; [easy|]. destruct p as [|n|e]; [reflexivity| |exact I].
    split; [reflexivity|]. split; [reflexivity|]. exact (DN n eq_refl).
Qed.
